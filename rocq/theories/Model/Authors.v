(** Model of /repo/src/disseminate/tags/preamble.py, class Authors *)
From Coq Require Import List Bool Arith NArith.
From Verif.Base Require Import Str Result.
From Verif.Model Require Import StringUtils.
Import ListNotations.

(** An item of a list that is a tag's content: a string or a tag (of which nothing matters here) *)
Inductive item := IStr (s : str) | ITag.
(** A tag's content, or the value of an entry of the context *)
Inductive value := VStr (s : str) | VItems (l : list item) | VNone | VOther.
(** preamble.py:24-25: the two entries of the context that are looked up *)
Record ctx := { ctx_author : option value; ctx_authors : option value }.

(** preamble.py:19-30 [Authors.__init__]: the content after it *)
Definition authors_content (context : ctx) (content : value) : value :=
  let blank := match content with VStr s => eqb (strip s) nil | VNone => true | _ => false end in
  let content :=
    if blank then
      match ctx_author context with
      | Some v => v
      | None => match ctx_authors context with Some v => v | None => VStr nil end
      end
    else content in
  match content with VStr s => VItems (map IStr (str_to_list s)) | _ => content end.

(** [sep.join(l)]: an item that is not a string raises TypeError *)
Fixpoint strings_of (l : list item) : result (list str) :=
  match l with
  | nil => Ok nil
  | IStr s :: r => do t <- strings_of r ; Ok (s :: t)
  | ITag :: _ => Raise TypeError
  end.
Definition join_items (sep : str) (l : list item) : result str := do t <- strings_of l ; Ok (join sep t).

(** preamble.py:32-53 [author_string]; a list with one item gives that item, which may be a tag *)
Definition author_string (content : value) : result item :=
  match match content with VStr s => Some (map IStr (str_to_list s)) | VItems l => Some l | _ => None end with
  | None => Ok (IStr nil)
  | Some nil => Ok (IStr nil)
  | Some [a] => Ok a
  | Some l =>
      let n := length l in
      let last_two := skipn (n - 2) l in
      let others := firstn (n - 2) l in
      do o <- join_items (lit ", ") others ;
      do t <- join_items (lit " and ") last_two ;
      if Nat.eqb n 2 then Ok (IStr (o ++ t)) else Ok (IStr (o ++ lit ", " ++ t))
  end.

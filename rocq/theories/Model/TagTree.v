(** Model of the functions on trees of tags in
    /repo/src/disseminate/tags/tag.py and /repo/src/disseminate/tags/utils.py *)
From Coq Require Import List Bool Arith NArith.
From Verif.Base Require Import Str Result.
From Verif.Model Require Import TagParser.
Import ListNotations.

(** Strings, None, tags (with an identity, their class, their context and their
    content) and lists.  The attributes of tags play no role here. *)
Inductive obj :=
| OStr (s : str)
| ONone
| OTag (id cls ctx : nat) (c : obj)
| OList (l : list obj).

Definition is_tag (o : obj) : bool := match o with OTag _ _ _ _ => true | _ => false end.

(** tag.py:162-206 [flatten] without the last filter.  [flatten_all o] is
    self.flatten(tag=o): the object, then the items of its content.  A string is
    iterated character by character (it has __iter__), a tag is not iterable. *)
Fixpoint flatten_all (o : obj) : list obj :=
  let visit := fun item : obj =>
    item :: match item with
            | OTag _ _ _ (OList _ as c) => flatten_all c
            | OTag _ _ _ (OTag _ _ _ _ as c) => flatten_all c
            | _ => nil
            end in
  let items := fun content : obj =>
    match content with
    | OList l => flat_map visit l
    | OStr s => map (fun c => OStr [c]) s
    | _ => nil
    end in
  o :: match o with
       | OTag _ _ _ (OTag _ _ _ _ as t) => visit t
       | OTag _ _ _ ONone => [ONone]
       | OTag _ _ _ c => items c
       | ONone => [ONone]
       | _ => items o
       end.
(** tag.py:162-206 with filter_tags=True *)
Definition flatten (o : obj) : list obj := filter is_tag (flatten_all o).

(** utils.py:108-146 [copy_tag]; [n] is the next unused identity.  The copy of
    None fails when its content is set (line 144).  Copies of attributes are not
    modelled. *)
Fixpoint copy_tag (n : nat) (o : obj) : result (obj * nat) :=
  match o with
  | OStr s => Ok (OStr s, n)
  | OList l =>
      do r <- (fix go (n : nat) (l : list obj) : result (list obj * nat) :=
                 match l with
                 | nil => Ok (nil, n)
                 | i :: l' => do a <- copy_tag n i ; do b <- go (snd a) l' ; Ok (fst a :: fst b, snd b)
                 end) n l ;
      Ok (OList (fst r), snd r)
  | OTag _ cls ctx c => do r <- copy_tag (S n) c ; Ok (OTag n cls ctx (fst r), snd r)
  | ONone => Raise AttributeError
  end.

(** utils.py:87-105 [replace_context]: the tags found by flatten are changed *)
Definition ids (l : list obj) : list nat := flat_map (fun o => match o with OTag id _ _ _ => [id] | _ => nil end) l.
Fixpoint set_context (which : list nat) (new : nat) (o : obj) : obj :=
  match o with
  | OTag id cls ctx c => OTag id cls (if mem id which then new else ctx) (set_context which new c)
  | OList l => OList (map (set_context which new) l)
  | _ => o
  end.
Definition replace_context (o : obj) (new : nat) : obj := set_context (ids (flatten o)) new o.

(** tag.py:142-160 [copy] *)
Definition tag_copy (n : nat) (o : obj) (new_context : option nat) : result (obj * nat) :=
  do r <- copy_tag n o ;
  Ok (match new_context with Some c => replace_context (fst r) c | None => fst r end, snd r).

(** utils.py:60-84 [repl_tags]; [sub] is the test for the class *)
Fixpoint repl_tags (sub : nat -> bool) (replacement : str) (o : obj) : obj :=
  match o with
  | OTag id cls ctx c => if sub cls then OStr replacement else OTag id cls ctx (repl_tags sub replacement c)
  | OList l => OList (map (repl_tags sub replacement) l)
  | _ => o
  end.

(** [''.join(l)] *)
Fixpoint join_strs (l : list obj) : result str :=
  match l with
  | nil => Ok nil
  | OStr s :: r => do t <- join_strs r ; Ok (s ++ t)
  | _ => Raise TypeError
  end.

(** tag.py:224-244 [default_fmt] of the base class on the content of a tag, and
    utils.py:38-57 [format_content] in it.  Subclasses with their own default_fmt
    are not modelled here. *)
Fixpoint default_fmt (content : obj) : result obj :=
  let fmt := fun i : obj => match i with OTag _ _ _ c => default_fmt c | _ => Ok i end in
  do x <- match content with
          | OList l => do l' <- map_r fmt l ; Ok (match l' with [x] => x | _ => OList l' end)
          | OTag _ _ _ c => default_fmt c
          | _ => Ok content
          end ;
  match x with
  | OList l => do s <- join_strs l ; Ok (OStr s)
  | _ => Ok x
  end.

(** The result of the parser as such a tree *)
Fixpoint of_content (c : content) : obj :=
  match c with
  | Text s => OStr s
  | Tag _ _ c' => OTag 0 0 0 (of_content c')
  | Items l => OList (map of_content l)
  end.

(** References of html text and the files they refer to *)
From Coq Require Import List Bool Arith NArith.
From Verif.Base Require Import Str PurePath.
From Verif.Model Require Import Paths.
Import ListNotations.

(** An element with one reference:
    the text before and after the attribute, the text between it and its value, the value, and its last quote *)
Inductive kind := KLink | KImage.
Record element := mkelement { kind_of : kind; before : str; gap : str; value : str; last_quote : char; after : str }.
Definition tag (k : kind) : str := match k with KLink => lit "link" | KImage => lit "img" end.
Definition attribute (k : kind) : str := match k with KLink => lit "href=" | KImage => lit "src=" end.
Definition element_text (e : element) : str :=
  lit "<" ++ tag (kind_of e) ++ before e ++ attribute (kind_of e) ++ gap e ++ value e ++ [last_quote e] ++ after e ++ lit ">".
(** Quotes, or the start of a jinja expression *)
Definition quotes (c : char) : Prop := c = 34%N \/ c = 39%N.
Definition starts (c : char) : Prop := quotes c \/ c = 123%N \/ rx_space c = true.
(** Elements that can be read: the attribute once, after a space, and a value of one line in quotes *)
Definition well_formed (e : element) : Prop :=
  (exists c d, before e = c :: d /\ rx_space c = true) /\ (exists c d, before e = c ++ [d] /\ rx_space d = true) /\
  gap e <> [] /\ (forall c, In c (gap e) -> starts c) /\
  (exists c d, value e = c :: d /\ ~ starts c) /\ (forall c, In c (value e) -> ~ quotes c /\ c <> 10%N) /\
  quotes (last_quote e) /\
  (forall c, In c (before e ++ gap e ++ value e ++ after e) -> c <> 62%N /\ c <> 60%N) /\
  contains (before e) (attribute (kind_of e)) = false /\
  contains (gap e ++ value e ++ [last_quote e] ++ after e) (attribute (kind_of e)) = false.
(** Html text: elements after other text *)
Definition html (l : list (str * element)) (end_ : str) : str :=
  flat_map (fun x : str * element => fst x ++ element_text (snd x)) l ++ end_.
Definition no_element (t : str) : Prop := contains t (lit "<link") = false /\ contains t (lit "<img") = false.
Definition references (k : kind) (l : list (str * element)) : list str :=
  flat_map (fun x : str * element => match k, kind_of (snd x) with
                                     | KLink, KLink | KImage, KImage => [value (snd x)]
                                     | _, _ => []
                                     end) l.
Definition local (r : str) : Prop := contains r (lit "://") = false.

(** The file a reference refers to: next to the file with the reference, or below the root *)
Definition below (root : path) (names : list str) : path := mkpath (absolute root) (parts root ++ names).
Definition names_of (stub : str) : list str := filter real_part (split_c 47%N stub).
Inductive refers (is_file : path -> Prop) (root : path) (dir : list str) (stub : str) : xpath -> Prop :=
| refers_near : is_file (below root (dir ++ names_of stub)) ->
    refers is_file root dir stub (Source root (mkpath false (dir ++ names_of stub)))
| refers_root : ~ is_file (below root (dir ++ names_of stub)) -> is_file (below root (names_of stub)) ->
    refers is_file root dir stub (Source root (mkpath false (names_of stub))).
(** The root of a file and the names of its directory below *)
Definition root_of (x : xpath) : path :=
  match x with Plain p => p | Source r _ => r | Target r t _ => full (Target r t (mkpath false [])) end.
Definition dir_of (x : xpath) : list str :=
  match x with Plain p => [] | Source _ s | Target _ _ s => removelast (parts s) end.
(** The dependencies of a file: those of html files, in the order of the references ([refs]) *)
Inductive depends (file : path -> option str) (refs : str -> list str) : xpath -> list xpath -> Prop :=
| depends_plain p : depends file refs (Plain p) []
| depends_other x : ~ In (path_suffix (full x)) [lit ".html"; lit ".htm"; lit ".xhtml"] -> depends file refs x []
| depends_none x : file (full x) = None -> depends file refs x []
| depends_html x content l : match x with Plain _ => False | _ => True end ->
    In (path_suffix (full x)) [lit ".html"; lit ".htm"; lit ".xhtml"] -> file (full x) = Some content ->
    Forall2 (refers (fun p => exists c, file p = Some c) (root_of x) (dir_of x)) (refs content) l ->
    depends file refs x l.
(** Source and target paths have relative subpaths. *)
Definition proper (x : xpath) : Prop := match x with Plain _ => True | Source _ s | Target _ _ s => absolute s = false end.

(** Model of the files of an epub: /repo/src/disseminate/builders/xhtml2epub.py and
    target_builders/epub_builder.py:56-81 and 131-167 *)
From Coq Require Import List Bool Arith NArith.
From Verif.Base Require Import Str Result PurePath.
From Verif.Model Require Import ListUtils.
Import ListNotations.

(** A file: its directory - the root, and the target if it has one - and its path in it.  Parts of paths
    are not empty and no single dots (as for Path). *)
Record file := mkfile { f_root : list str; f_sub : list str }.
Definition file_eqb (a b : file) : bool := eqb (f_root a ++ f_sub a) (f_root b ++ f_sub b).
Definition f_name (f : file) : str := last (f_sub f) nil.
Definition f_suffix (f : file) : str := snd (split_name (f_name f)).

(** os.path.normpath of a relative path, on parts; the accumulator is reversed *)
Definition nstep (acc : list str) (c : str) : list str :=
  if eqb c (lit "..") then
    match acc with
    | nil => [c]
    | t :: r => if eqb t (lit "..") then c :: acc else r
    end
  else c :: acc.
Definition norm (l : list str) : list str := rev (fold_left nstep l nil).

(** [Path.resolve] without symbolic links: the directory is absolute *)
Definition astep (acc : list str) (c : str) : list str := if eqb c (lit "..") then removelast acc else acc ++ [c].
Definition resolve (f : file) : list str := fold_left astep (f_sub f) (f_root f).

(** ** target_builders/epub_builder.py *)
(** epub_builder.py:56-75 [xhtml_filepaths]: the outputs of the builders of xhtml and of their dependencies,
    of the formats in settings.py:248-255; [uniq] compares paths *)
Definition allowed : list str := [lit ".css"; lit ".svg"; lit ".png"; lit ".xhtml"].
Fixpoint uniq_files (seen : list file) (l : list file) : list file :=
  match l with
  | nil => nil
  | f :: r => if existsb (file_eqb f) seen then uniq_files seen r else f :: uniq_files (f :: seen) r
  end.
Definition xhtml_filepaths (docs deps : list file) : list file :=
  uniq_files nil (filter (fun f => mem (f_suffix f) allowed) (docs ++ deps)).
(** epub_builder.py:77-81 [has_toc_xhtml]: the sub-path, a path, is compared with a text, and they are never
    equal *)
Definition has_toc_xhtml (l : list file) : bool := false.
(** epub_builder.py:97-98 and 145-149: [cache] is the directory of the cache *)
Definition epub_parameters (cache : list str) (docs deps : list file) : list file :=
  let l := xhtml_filepaths docs deps in
  if has_toc_xhtml l then l else l ++ [mkfile (cache ++ [lit "xhtml"]) [lit "toc.xhtml"]].

(** ** xhtml2epub.py *)
(** xhtml2epub.py:58-76: files that resolve to the same path are taken once *)
Definition parameters (l : list file) : list file := uniq_by resolve l.
(** xhtml2epub.py:51-52 *)
Definition check_toc (l : list file) : result unit :=
  if existsb (fun f => eqb (f_name f) (lit "toc.xhtml")) (parameters l) then Ok tt else Raise AssertionError.
(** xhtml2epub.py:94-100 *)
Definition ordered (l : list file) : list file :=
  let fps := parameters l in
  let front := filter (fun f => eqb (f_name f) (lit "title.xhtml")) fps ++ filter (fun f => eqb (f_name f) (lit "toc.xhtml")) fps in
  front ++ filter (fun f => negb (existsb (file_eqb f) front)) fps.

Section Epub.
Variable slugify : str -> str.
(** An entry of the list of contents: id, path from the list, format and whether it is the table of contents *)
Record item := mkitem { i_id : str; i_href : list str; i_media : str; i_nav : bool }.
(** xhtml2epub.py:129-150 [filepath_dict_list] *)
Definition dict_list (media suffix : str) (l : list file) : list item :=
  flat_map (fun f =>
    if eqb (f_suffix f) suffix then
      let is_toc := eqb (f_name f) (lit "toc.xhtml") in
      let sub := norm (f_sub f) in
      [mkitem (if is_toc then lit "toc" else slugify (join (lit "/") sub)) sub media is_toc]
    else nil) l.
(** xhtml2epub.py:106-108 and the manifest of templates/default/xhtml/content.opf:49-67 *)
Definition manifest (l : list file) : list item :=
  dict_list (lit "application/xhtml+xml") (lit ".xhtml") (ordered l) ++
  dict_list (lit "text/css") (lit ".css") (ordered l) ++
  dict_list (lit "image/svg+xml") (lit ".svg") (ordered l).
(** templates/default/xhtml/content.opf:69-74: the reading order *)
Definition spine (l : list file) : list str :=
  map i_id (dict_list (lit "application/xhtml+xml") (lit ".xhtml") (ordered l)).
End Epub.

(** What an entry of the archive holds *)
Inductive content := MimeType | Container | Opf | Copy (f : file).
(** xhtml2epub.py:169-203: the entries of the archive, in order; zipfile normalizes their names *)
Definition archive (l : list file) : list (list str * content) :=
  ([lit "mimetype"], MimeType) :: ([lit "META-INF"; lit "container.xml"], Container) ::
  ([lit "xhtml"; lit "content.opf"], Opf) ::
  map (fun f => (norm (lit "xhtml" :: f_sub f), Copy f)) (parameters l).

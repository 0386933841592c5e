(** Model of /repo/src/disseminate/tags/ref.py and of the labels that tags make in
    tags/label.py: where references lead and which label they show *)
From Coq Require Import List Bool Arith NArith.
From Verif.Base Require Import Str Dict Result PurePath.
From Verif.Model Require Import Paths Labels.
Import ListNotations.

(** A document: its id (document.py:109-113) and the files of its targets
    (document.py:176-190, None for a target without a builder) *)
Record document := { d_id : str; d_file : str -> option xpath }.

(** document.py:237-271 [documents_by_id] for all documents of a project.
    DocumentException is an OtherError. *)
Definition documents_by_id (docs : list document) : result (dict str document) :=
  let d := fold_left (fun r x => set (d_id x) x r) docs nil in
  if Nat.ltb (length d) (length docs) then Raise OtherError else Ok d.

(** The owner of a reference: the entry doc_id of its context and its document,
    and the documents of the root document *)
Record owner := { o_id : str; o_doc : document; o_docs : list document }.

(** ref.py:88-138 [document]: the document that owns a label *)
Definition label_document (o : owner) (l : label) : result (option document) :=
  if eqb (o_id o) (l_doc l) then Ok (Some (o_doc o))
  else do d <- documents_by_id (o_docs o) ; Ok (lookup (l_doc l) d).

(** ref.py:168: the target with its period *)
Definition dotted (target : str) : str := if startswith target (lit ".") then target else lit "." ++ target.

(** The file of a target.  TargetNotFound (document_context.py:264-268) is an OtherError. *)
Definition target_file (d : document) (target : str) : result xpath :=
  match d_file d target with Some x => Ok x | None => Raise OtherError end.

(** paths.py:201-202 and 218: the target of a link to a file is that of the file *)
Definition file_target (x : xpath) : str := match x with Target _ t _ => dotted t | _ => lit "." end.

(** ref.py:140-194 [url] of a reference to the label [l], with relative links (the
    default).  [cwd] is the working directory. *)
Definition url (cwd : list str) (o : owner) (target : str) (include_anchor : bool) (l : label) : result str :=
  if eqb (o_id o) (l_doc l) then Ok (if include_anchor then lit "#" ++ l_id l else nil)
  else
    do d <- label_document o l ;
    match d with
    | None => Raise AttributeError
    | Some d =>
        do x <- target_file d (dotted target) ;
        do own <- target_file (o_doc o) (file_target x) ;
        let link := relative_url cwd x (full own) in
        Ok (if include_anchor then link ++ lit "#" ++ l_id l else link)
    end.

(** ref.py:76 and 78-86 [label]: the label that a reference names *)
Definition ref_label (e : env) (content : str) (m : manager) : result label :=
  fst (get_label e (e_sep e) (strip content) m).

(** ref.py:363-365 (html, with the method html or xhtml as target) and ref.py:289-292
    (tex, with the target pdf): the url of the link of a reference.  Labels that are
    not content labels are labels of documents. *)
Definition ref_url (cwd : list str) (e : env) (o : owner) (target content : str) (m : manager) : result str :=
  do l <- ref_label e content m ; url cwd o target (l_content l) l.

(** label_manager.py:335-367 [format_string]: the label whose number and title are
    put into the text of a reference (ref.py:347-348 and 275-276: called with
    the id of the label only) *)
Definition shown_label (e : env) (id : str) (m : manager) : result label := fst (get_label e (e_sep e) id m).
Definition ref_shows (e : env) (content : str) (m : manager) : result label :=
  do l <- ref_label e content m ; shown_label e (l_id l) m.

(** label.py:162-182 [create_label] of a heading with the id [id]: the anchor is the
    attribute id of the heading (label.py:172); the heading shows the number and
    title of the label that label.py:266, 280 and 303 ask for *)
Definition heading_anchor (id : str) : str := id.
Definition heading_shows (e : env) (id : str) (m : manager) : result label := shown_label e (strip id) m.

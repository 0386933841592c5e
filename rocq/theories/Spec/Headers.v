(** Which values win: those of the header, of the template, of the templates it extends *)
From Coq Require Import List Bool Arith NArith ZArith.
From Verif.Base Require Import Str Dict Result PurePath.
From Verif.Model Require Import StrToDict Context Headers.
From Verif.Spec Require Import Context.
Import ListNotations.

(** The value in the first of several dictionaries that has one *)
Fixpoint first_value (ds : list (dict str str)) (k : str) : option str :=
  match ds with
  | nil => None
  | d :: r => match lookup k d with Some v => Some v | None => first_value r k end
  end.
Definition as_tree (o : option str) : option tree := match o with Some s => Some (TS (SStr s)) | None => None end.

(** Entries with a header: what the header says, and what is left of the entry *)
Definition header_text (t : option tree) : option (str * str) :=
  match t with Some (TS (SStr s)) => match_header s | _ => None end.
Definition without_header (t : option tree) : option tree :=
  match header_text t with Some (_, rest) => Some (TS (SStr rest)) | None => t end.
Definition header_entries (t : option tree) : dict str str :=
  match header_text t with Some (header, _) => str_to_dict true header | None => nil end.

(** The name of the template: that in the header if there is one (not empty), or else that of the context *)
Definition template_is (header : option str) (entry : option tree) (name : str) : Prop :=
  (header = Some name /\ name <> nil) \/ ((header = None \/ header = Some nil) /\ entry = Some (TS (SStr name))).

(** The text names a parent template after [before]: 'extends', spaces, and the name in quotes *)
Definition extends_after (text before name : str) : Prop :=
  exists spaces q1 q2 rest, text = before ++ lit "extends" ++ spaces ++ [q1] ++ name ++ [q2] ++ rest /\
    forallb rx_space spaces = true /\ In q1 [34; 39]%N /\ In q2 [34; 39]%N /\
    name <> nil /\ (forall c, In c name -> ~ In c [34; 39]%N).

(** The context file of a template: that in its directory, or else that in the directory above *)
Definition own_context (text : path -> option str) (template : path) : option str :=
  match text (path_join template (of_str (lit "context.txt"))) with
  | Some t => Some t
  | None => text (path_join (path_parent template) (of_str (lit "context.txt")))
  end.
(** The entries of a context file: those of its header, or of the whole file when it has none *)
Definition entries_in (t : option str) : dict str str :=
  match t with
  | None => nil
  | Some s => match match_header s with Some (header, _) => str_to_dict true header | None => str_to_dict true s end
  end.

(** What copying a project starter should do *)
From Coq Require Import List Bool Arith NArith.
From Verif.Base Require Import Str Dict Result.
From Verif.Model Require Import StrToDict Starters.
Import ListNotations.

(** A file system: one entry for each path, in directories that exist *)
Definition tree (f : fs) : Prop :=
  wf f /\ forall p e, lookup p f = Some e -> p <> nil /\ look f (removelast p) = Some Dir.
(** A starter is a directory with a description; its name has the parts of the directory below that of the templates
    without those named as the directory of starters *)
Definition starter_at (f : fs) (tpl : fpath) (name : str) (dir : fpath) : Prop :=
  exists r s, dir = tpl ++ r /\ look f (tpl ++ r ++ [lit "description.yaml"]) = Some (File s) /\
    name = join (lit "/") (filter (fun x => negb (eqb x (lit "starters")) && negb (eqb x (lit "description.yaml"))) r).
(** The files of a starter *)
Definition starter_file (f : fs) (dir r : fpath) (s : str) : Prop :=
  r <> nil /\ last r nil <> lit "description.yaml" /\ look f (dir ++ r) = Some (File s).
(** No file is copied into the starter itself or to a place where there is a directory *)
Definition clear (f : fs) (dir out : fpath) : Prop :=
  forall r s, starter_file f dir r s -> (forall q, out ++ r <> dir ++ q) /\ look f (out ++ r) <> Some Dir.
(** A path for which files are copied below it *)
Definition above (f : fs) (dir out q : fpath) : Prop :=
  exists r s t, starter_file f dir r s /\ t <> nil /\ out ++ r = q ++ t.
(** The copy of a starter: each file is as in the starter, directories are new only if they are needed for a file,
    and all the rest is as it was *)
Definition copied (f : fs) (dir out : fpath) (g : fs) : Prop :=
  forall r s, starter_file f dir r s -> look g (out ++ r) = Some (File s).
Definition rest (f : fs) (dir out : fpath) (g : fs) : Prop :=
  forall q, (forall r s, starter_file f dir r s -> q <> out ++ r) ->
    look g q = look f q \/ (look f q = None /\ look g q = Some Dir /\ above f dir out q).
(** All descriptions are files with a description in a directory of starters *)
Definition described (f : fs) (tpl : fpath) : Prop :=
  forall r e, look f (tpl ++ r ++ [lit "description.yaml"]) = Some e ->
    In (lit "starters") r /\ exists s, e = File s /\ lookup (lit "description") (str_to_dict true s) <> None.

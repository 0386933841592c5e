(** What an epub should have *)
From Coq Require Import List Bool Arith NArith.
From Verif.Base Require Import Str.
From Verif.Model Require Import Epub.
Import ListNotations.

(** Where a path leads from a directory *)
Definition walk (dir : list str) (l : list str) : list str :=
  fold_left (fun d x => if eqb x (lit "..") then removelast d else d ++ [x]) l dir.
(** A path that never leaves its directory *)
Definition stays (l : list str) : Prop :=
  forall a b, l = a ++ b ->
    length (filter (fun x => eqb x (lit "..")) a) <= length (filter (fun x => negb (eqb x (lit ".."))) a).
(** The file a file object is *)
Definition place (f : file) : list str := walk (f_root f) (f_sub f).
(** The formats that the list of contents has *)
Definition media_of (suffix : str) : option str :=
  if eqb suffix (lit ".xhtml") then Some (lit "application/xhtml+xml")
  else if eqb suffix (lit ".css") then Some (lit "text/css")
  else if eqb suffix (lit ".svg") then Some (lit "image/svg+xml")
  else None.
(** Names end a path: the last part is not '..' *)
Definition named (f : file) : Prop := exists a n, f_sub f = a ++ [n] /\ n <> lit "..".
(** The text of the path of a file in its directory *)
Definition sub_text (f : file) : str := join (lit "/") (walk nil (f_sub f)).
(** Files in one directory that can be told apart by name: they stay in it and have names *)
Definition tidy (root : list str) (l : list file) : Prop :=
  forall f, In f l -> f_root f = root /\ stays (f_sub f) /\ named f /\ mem (f_suffix f) [lit ".css"; lit ".svg"; lit ".png"; lit ".xhtml"] = true.

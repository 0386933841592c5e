(** Images and code *)
From Coq Require Import List Bool Arith NArith.
From Verif.Base Require Import Str Dict Result PurePath PyText.
From Verif.Model Require Import Attributes Paths Images.
From Verif.Spec Require Import Attributes Paths.
Import ListNotations.

(** The argument of includegraphics for the file with the path [p]: all but the extension is in braces, and is
    detokenized if the path is not in ascii *)
Inductive names_file : str -> str -> Prop :=
| names_ascii b e : Forall (fun c => (c < 128)%N) (b ++ e) -> names_file (lit "{" ++ b ++ lit "}" ++ e) (b ++ e)
| names_other b e : ~ Forall (fun c => (c < 128)%N) (b ++ e) -> names_file (lit "{\detokenize{" ++ b ++ lit "}}" ++ e) (b ++ e).
(** The extension has no dot but the first, and starts with it *)
Definition extension (e : str) : Prop := e = nil \/ exists x, e = 46%N :: x /\ ~ In 46%N x.

(** The file that is named in a text: that of the first line that names one *)
Definition first_file (f : path -> bool) (ps : list xpath) (s : str) (x : xpath) : Prop :=
  exists a l b, splitlines (strip s) = a ++ l :: b /\ l <> nil /\ find_text f l ps = Ok x /\
    forall y, In y a -> y = nil \/ exists e, find_text f y ps = Raise e.
Definition no_file (f : path -> bool) (ps : list xpath) (s : str) : Prop :=
  forall y, In y (splitlines (strip s)) -> y = nil \/ exists e, find_text f y ps = Raise e.

(** The attributes among parameters *)
Definition attribute_of (k : str) (v : aval) : param :=
  PAttr (match v with VPos _ => inl k | _ => inr (k, v) end).

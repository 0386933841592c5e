(** How links are written. *)
From Coq Require Import List Bool Arith NArith.
From Verif.Base Require Import Str PurePath.
From Verif.Model Require Import Links.
Import ListNotations.

(** [html_text w x]: a reader of html takes [w] as the text [x] *)
Inductive html_text : str -> str -> Prop :=
| ht_nil : html_text [] []
| ht_char c w x : ~ In c [38; 60; 62; 34; 39]%N -> html_text w x -> html_text (c :: w) (c :: x)
| ht_amp w x : html_text w x -> html_text (lit "&amp;" ++ w) (38%N :: x)
| ht_lt w x : html_text w x -> html_text (lit "&lt;" ++ w) (60%N :: x)
| ht_gt w x : html_text w x -> html_text (lit "&gt;" ++ w) (62%N :: x)
| ht_quot w x : html_text w x -> html_text (lit "&#34;" ++ w) (34%N :: x)
| ht_apos w x : html_text w x -> html_text (lit "&#39;" ++ w) (39%N :: x).

(** The file that a tag leads to: the source of the document, its file for a target that the document is made for, or
    the epub file of the root document *)
Definition made_for (f : files) (t : str) (p : path) : Prop := In t (f_targets f) /\ f_file f t = Some p.
Definition leads_for (f : files) (root : option files) (k : other_link) (p : path) : Prop :=
  match k with
  | Srclink => f_src f = Some p
  | Txtlink => made_for f (lit ".txt") p
  | Texlink => made_for f (lit ".tex") p
  | Pdflink => made_for f (lit ".pdf") p
  | Epublink => exists r, root = Some r /\ made_for r (lit ".epub") p
  end.
(** All targets have files *)
Definition complete (f : files) : Prop := forall t, In t (f_targets f) -> f_file f t <> None.

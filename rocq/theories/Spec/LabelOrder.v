(** What the order of texts and of labels means *)
From Coq Require Import List NArith.
From Verif.Base Require Import Str.
From Verif.Model Require Import LabelOrder.
Import ListNotations.

(** a text is before another: it is a proper beginning of it, or has a smaller character where they first differ *)
Definition text_before (a b : str) : Prop :=
  (exists x c, b = a ++ x :: c) \/ (exists p x y a' b', a = p ++ x :: a' /\ b = p ++ y :: b' /\ (x < y)%N).
(** a label is before another: its document is, or the documents are the same and its id is *)
Definition before (l m : plabel) : Prop :=
  text_before (p_doc l) (p_doc m) \/ (p_doc l = p_doc m /\ text_before (p_id l) (p_id m)).
(** labels with the same document and id *)
Definition same (l m : plabel) : Prop := p_doc l = p_doc m /\ p_id l = p_id m.

(** Which builders a tree of documents should have *)
From Coq Require Import List Bool Arith NArith.
From Verif.Base Require Import Str.
From Verif.Model Require Import TargetBuilders.
Import ListNotations.

(** A target that a document asks for, with or without its period *)
Definition asks (d : doc) (e : str) : Prop := exists t, In t (d_targets d) /\ (e = t /\ startswith t (lit ".") = true \/ e = lit "." ++ t /\ startswith t (lit ".") = false).
(** A target that a document of the tree is to be built for: an epub is made once, for the root *)
Definition built_for (root d : doc) (e : str) : Prop := asks d e /\ (e = lit ".epub" -> d_id d = d_id root).
(** A target that is needed to make another one: the tex of a pdf and the xhtml of an epub *)
Definition needed_for (root d : doc) (e : str) : Prop :=
  e = lit ".tex" /\ built_for root d (lit ".pdf") \/ e = lit ".xhtml" /\ built_for root root (lit ".epub").
Definition wanted (root d : doc) (e : str) : Prop := built_for root d e \/ needed_for root d e.
(** The formats *)
Definition known (has_latex : bool) (e : str) : Prop :=
  In e [lit ".html"; lit ".xhtml"; lit ".tex"; lit ".txt"; lit ".epub"] \/ e = lit ".pdf" /\ has_latex = true.

(** The classes for widths. *)
From Coq Require Import List QArith.
From Verif.Base Require Import Str.
Import ListNotations.
Open Scope Q_scope.

(** The class of a width between 0% and 100%, by size, and the width used in tex. *)
Definition in_window (lo hi q : Q) : Prop := lo < q <= hi.
Inductive class_of : Q -> nat -> str -> str -> Prop :=
| w25 q : in_window 0 25 q -> class_of q 25 (lit "w25") (lit "0.24\textwidth")
| w33 q : in_window 25 33 q -> class_of q 33 (lit "w33") (lit "0.32\textwidth")
| w50 q : in_window 34 50 q -> class_of q 50 (lit "w50") (lit "0.49\textwidth")
| w66 q : in_window 50 67 q -> class_of q 66 (lit "w66") (lit "0.65\textwidth")
| w75 q : in_window 67 75 q -> class_of q 75 (lit "w75") (lit "0.74\textwidth")
| w100 q : in_window 75 100 q -> class_of q 100 (lit "w100") (lit "0.99\textwidth").

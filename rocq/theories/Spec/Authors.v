(** How a list of names is read *)
From Coq Require Import List Bool Arith NArith.
From Verif.Base Require Import Str.
Import ListNotations.

Inductive reads_as : list str -> str -> Prop :=
| ra_none : reads_as [] []
| ra_one a : reads_as [a] a
| ra_two a b : reads_as [a; b] (a ++ lit " and " ++ b)
| ra_more a l s : 2 <= length l -> reads_as l s -> reads_as (a :: l) (a ++ lit ", " ++ s).

(** A name: not empty, with no comma, semicolon or line break, with nothing around it, and without the word and *)
Definition a_name (n : str) : Prop :=
  n <> [] /\ ~ In 44%N n /\ ~ In 59%N n /\ ~ In 10%N n /\ strip n = n /\ contains (lit " " ++ n ++ lit " ") (lit " and ") = false.

(** Model of the comparisons, hashes and numbers of labels: /repo/src/disseminate/label_manager/types/label.py *)
From Coq Require Import List Bool NArith.
From Verif.Base Require Import Str Sort.
Import ListNotations.

(** label.py:36-48: a label with the name of its class and its order. [doc_id] and [id] are texts, as the
    docstring says; comparisons with other values are not modelled. *)
Record plabel := PLabel { p_cls : str; p_doc : str; p_id : str; p_order : option (list N) }.

(** Python's [==] and [<] of texts: by code points *)
Fixpoint text_eq (a b : str) : bool :=
  match a, b with
  | [], [] => true
  | x :: a', y :: b' => N.eqb x y && text_eq a' b'
  | _, _ => false
  end.
Fixpoint text_lt (a b : str) : bool :=
  match a, b with
  | _, [] => false
  | [], _ :: _ => true
  | x :: a', y :: b' => if N.eqb x y then text_lt a' b' else N.ltb x y
  end.
(** Python's comparison of pairs: the first items that differ are compared; if there are none, [same] *)
Definition pair_cmp (op : str -> str -> bool) (same : bool) (p q : str * str) : bool :=
  if text_eq (fst p) (fst q) then (if text_eq (snd p) (snd q) then same else op (snd p) (snd q))
  else op (fst p) (fst q).
Definition pair_of (l : plabel) : str * str := (p_doc l, p_id l).

(** label.py:67-68 [__lt__] *)
Definition label_lt (l m : plabel) : bool := pair_cmp text_lt false (pair_of l) (pair_of m).
(** label.py:70-71 [__le__] *)
Definition label_le (l m : plabel) : bool := pair_cmp text_lt true (pair_of l) (pair_of m).
(** label.py:73-74 [__gt__] *)
Definition label_gt (l m : plabel) : bool := pair_cmp (fun a b => text_lt b a) false (pair_of l) (pair_of m).
(** label.py:76-77 [__ge__] *)
Definition label_ge (l m : plabel) : bool := pair_cmp (fun a b => text_lt b a) true (pair_of l) (pair_of m).
(** label.py:79-80 [__eq__] *)
Definition label_eq (l m : plabel) : bool := text_eq (p_doc l) (p_doc m) && text_eq (p_id l) (p_id m).
(** label.py:82-83 [__ne__] *)
Definition label_ne (l m : plabel) : bool := negb (text_eq (p_doc l) (p_doc m) && text_eq (p_id l) (p_id m)).
(** label.py:85-86 [__hash__]; [h] is Python's [hash] of a tuple of three texts *)
Definition label_hash (h : str * str * str -> N) (l : plabel) : N := h (p_cls l, p_doc l, p_id l).
(** label.py:88-94 [number]: the last order; an order that is no tuple is None here *)
Definition number (l : plabel) : option N :=
  match p_order l with
  | Some ((_ :: _) as o) => Some (last o 0%N)
  | _ => None
  end.
(** Python's [sorted] of labels only uses [__lt__]: tags/ref.py:38 *)
Definition sorted_labels (ls : list plabel) : list plabel := isort (fun a b => negb (label_lt b a)) ls.

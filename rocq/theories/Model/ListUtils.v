(** Model of /repo/src/disseminate/utils/list.py *)
From Coq Require Import List Bool Arith ZArith.
From Verif.Base Require Import Str Dict Result.
Import ListNotations.

(** utils/list.py:32-48 [unique_everseen].  The [key is None] loop (39-42) is
    the instance with the identity key; [seen] is the set.  Generators are
    modelled by the list they yield. *)
Fixpoint unique_everseen {A K} `{EqDec K} (key : A -> K) (seen : list K) (l : list A) : list A :=
  match l with
  | nil => nil
  | x :: r =>
      let k := key x in
      if mem k seen then unique_everseen key seen r
      else x :: unique_everseen key (k :: seen) r
  end.

(** utils/list.py:8-29 [uniq] with a key *)
Definition uniq_by {A K} `{EqDec K} (key : A -> K) (l : list A) : list A :=
  unique_everseen key nil l.
(** utils/list.py:8-29 [uniq] without a key *)
Definition uniq {A} `{EqDec A} (l : list A) : list A := uniq_by (fun x => x) l.

(** utils/list.py:71-74: the counts dictionary of [dupes] *)
Definition count_items {A K} `{EqDec K} (key : A -> K) (l : list A) : dict K nat :=
  fold_left
    (fun counts item =>
       let mapping := key item in
       match lookup mapping counts with
       | Some n => set mapping (n + 1) counts
       | None => set mapping (0 + 1) counts      (* setdefault(mapping, 0) + 1 *)
       end) l nil.

(** utils/list.py:51-79 [dupes]; [counts[key(item)]] cannot raise as every
    item has been counted, a missing entry is read as 0. *)
Definition dupes_by {A K} `{EqDec K} (key : A -> K) (l : list A) : list A :=
  let counts := count_items key l in
  filter (fun item => match lookup (key item) counts with
                      | Some n => Nat.ltb 1 n
                      | None => false
                      end) l.
(** utils/list.py:51-79 [dupes] without a key *)
Definition dupes {A} `{EqDec A} (l : list A) : list A := dupes_by (fun x => x) l.

(** Python values for [unwrap] and [flatten]: a list, or anything else. *)
Inductive pval (A : Type) :=
| Atom (a : A)
| PList (l : list (pval A)).
Arguments Atom {A} a.
Arguments PList {A} l.

(** utils/list.py:82-109 [unwrap] *)
Fixpoint unwrap {A} (v : pval A) : pval A :=
  match v with
  | PList [x] =>
      match x with
      | PList [_] => unwrap x
      | _ => x
      end
  | _ => v
  end.

(** utils/list.py:112-128 [flatten]: the argument is the outer list *)
Fixpoint flatten_val {A} (v : pval A) : list A :=
  match v with
  | Atom a => [a]
  | PList l => flat_map flatten_val l
  end.
Definition flatten {A} (l : list (pval A)) : list A := flat_map flatten_val l.

(** Python slice [l[i:j]] for 0 <= i <= j *)
Definition slice {A} (i j : nat) (l : list A) : list A := firstn (j - i) (skipn i l).

(** Python [range(0, n, step)] for step > 0 *)
Definition range_step (n step : nat) : list nat :=
  map (fun j => j * step) (seq 0 ((n + step - 1) / step)).

(** utils/list.py:131-147 [chunks]; a zero step makes [range] raise
    ValueError, a negative one gives an empty range. *)
Definition chunks {A} (l : list A) (n : Z) : result (list (list A)) :=
  if Z.eqb n 0 then Raise ValueError
  else if Z.ltb n 0 then Ok nil
  else let k := Z.to_nat n in
       Ok (map (fun i => slice i (i + k) l) (range_step (length l) k)).

(** Python [zip] of a list of lists, at most [n] rows *)
Fixpoint zip_star {A} (n : nat) (rows : list (list A)) : list (list A) :=
  match n with
  | O => nil
  | S m =>
      if existsb (fun r => match r with nil => true | _ => false end) rows then nil
      else flat_map (fun r => match r with nil => nil | x :: _ => [x] end) rows
             :: zip_star m (map (@tl A) rows)
  end.

(** utils/list.py:169-181 [transpose]: [zip] of no lists is empty *)
Definition transpose {A} (rows : list (list A)) : list (list A) :=
  match rows with
  | nil => nil
  | r0 :: _ => zip_star (length r0) rows
  end.

(** More Python text built-ins: [splitlines], [replace], [split] with a longer
    separator, and regular expressions in the order in which a backtracking
    matcher tries them.  (Model of CPython and of the regex package; no file in
    /repo.) *)
From Coq Require Import List NArith Bool Arith.
From Verif.Base Require Import Str.
Import ListNotations.

(** The characters at which [str.splitlines] breaks *)
Definition is_linebreak (c : char) : bool :=
  (N.leb 10 c && N.leb c 13) || (N.leb 28 c && N.leb c 30) ||
  N.eqb c 133 || N.eqb c 8232 || N.eqb c 8233.

(** [s.splitlines()]: [cur] is the line read so far, reversed; a carriage
    return followed by a newline is one break; there is no empty last line. *)
Fixpoint splitlines_from (cur : str) (x : str) : list str :=
  match x with
  | nil => match cur with nil => nil | _ => [rev cur] end
  | c :: r =>
      if is_linebreak c then
        match r with
        | d :: r' =>
            if N.eqb c 13 && N.eqb d 10 then rev cur :: splitlines_from nil r'
            else rev cur :: splitlines_from nil r
        | nil => [rev cur]
        end
      else splitlines_from (c :: cur) r
  end.
Definition splitlines (x : str) : list str := splitlines_from nil x.

(** [s.replace(a + b, new)] for a two-character pattern *)
Fixpoint replace2 (a b : char) (new : str) (x : str) : str :=
  match x with
  | c :: r =>
      match r with
      | d :: r' => if N.eqb c a && N.eqb d b then new ++ replace2 a b new r'
                   else c :: replace2 a b new r
      | nil => [c]
      end
  | nil => nil
  end.

(** [s.split(a + b)] for a two-character separator *)
Fixpoint split2 (a b : char) (x : str) : list str :=
  match x with
  | nil => [nil]
  | c :: r =>
      match r with
      | d :: r' =>
          if N.eqb c a && N.eqb d b then nil :: split2 a b r'
          else match split2 a b r with
               | nil => [[c]]
               | w :: ws => (c :: w) :: ws
               end
      | nil => [[c]]
      end
  end.

(** [s.count(c)] *)
Definition count_c (c : char) (x : str) : nat := length (filter (N.eqb c) x).

(** A regular expression is matched by trying the alternatives in order: the
    candidates of a repetition are listed in the order tried. *)

(** [[f]*?]: the shortest first *)
Fixpoint star_lazy {A} (f : A -> bool) (x : list A) : list (list A * list A) :=
  (nil, x) :: match x with
              | c :: r => if f c then map (fun p => (c :: fst p, snd p)) (star_lazy f r) else nil
              | nil => nil
              end.
(** [[f]*]: the longest first *)
Fixpoint star_greedy {A} (f : A -> bool) (x : list A) : list (list A * list A) :=
  match x with
  | c :: r => if f c then map (fun p => (c :: fst p, snd p)) (star_greedy f r) else nil
  | nil => nil
  end ++ [(nil, x)].
(** [[f]+?] *)
Definition plus_lazy {A} (f : A -> bool) (x : list A) : list (list A * list A) :=
  match x with
  | c :: r => if f c then map (fun p => (c :: fst p, snd p)) (star_lazy f r) else nil
  | nil => nil
  end.
(** [[f]+] *)
Definition plus_greedy {A} (f : A -> bool) (x : list A) : list (list A * list A) :=
  match x with
  | c :: r => if f c then map (fun p => (c :: fst p, snd p)) (star_greedy f r) else nil
  | nil => nil
  end.

(** the first candidate for which the rest of the expression matches *)
Fixpoint first_match {A B} (f : A -> option B) (l : list A) : option B :=
  match l with
  | nil => None
  | x :: r => match f x with Some b => Some b | None => first_match f r end
  end.

(** a literal prefix *)
Fixpoint eat {A} `{EqDec A} (p x : list A) : option (list A) :=
  match p, x with
  | nil, _ => Some x
  | c :: p', d :: x' => if eqb c d then eat p' x' else None
  | _ :: _, nil => None
  end.

(** [s.split(sep)] for a separator of any length but 0 ([skip]: characters of
    the separator that are still to be skipped) *)
Fixpoint split_from (sep : str) (skip : nat) (x : str) : list str :=
  match x with
  | nil => [nil]
  | c :: r =>
      match skip with
      | S k => split_from sep k r
      | O =>
          if startswith x sep then nil :: split_from sep (length sep - 1) r
          else match split_from sep 0 r with
               | nil => [[c]]
               | w :: ws => (c :: w) :: ws
               end
      end
  end.
Definition split_s (sep x : str) : list str := split_from sep 0 x.

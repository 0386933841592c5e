(** What a list of dependencies needs, and versions of packages *)
From Coq Require Import List Bool Arith NArith.
From Verif.Base Require Import Str.
From Verif.Model Require Import Checkers.
Import ListNotations.

(** A dependency is met if it is there, all of a list of all, one of a list of alternatives,
    and optional ones always. *)
Inductive met (ok : str -> option bool -> Prop) : dep -> Prop :=
| met_dep n a : ok n a -> met ok (Dep n a)
| met_all c l : (forall x, In x l -> met ok x) -> met ok (Group KAll c l)
| met_any c l x : In x l -> met ok x -> met ok (Group KAny c l)
| met_optional c l : met ok (Group KOptional c l).

(** All members, from the first to the last *)
Fixpoint leaves (d : dep) : list (str * option bool) :=
  match d with Dep n a => [(n, a)] | Group _ _ l => flat_map leaves l end.
Definition fresh (d : dep) : Prop := forall n a, In (n, a) (leaves d) -> a = None.
(** The same lists with other answers for the members *)
Fixpoint answered (f : str -> option bool -> option bool) (d : dep) : dep :=
  match d with Dep n a => Dep n (f n a) | Group k c l => Group k c (map (answered f) l) end.

(** All items with their level, each list before its members *)
Fixpoint preorder (level : nat) (d : dep) : list (nat * dep) :=
  (level, d) :: match d with Dep _ _ => [] | Group _ _ l => flat_map (preorder (S level)) l end.
(** The number of lists inside of each other *)
Fixpoint depth (d : dep) : nat :=
  match d with Dep _ _ => 0 | Group _ _ l => S (fold_right (fun x m => Nat.max (depth x) m) 0 l) end.

(** Numbers and versions *)
Inductive numeral : str -> N -> Prop :=
| num_one c : (48 <= c <= 57)%N -> numeral [c] (c - 48)
| num_more s n c : numeral s n -> (48 <= c <= 57)%N -> numeral (s ++ [c]) (10 * n + (c - 48)).
Definition version (v : str) (ns : list N) : Prop :=
  ns <> [] /\ exists l, Forall2 numeral l ns /\ v = join [46%N] l.
Definition operator_text (o : cmp) : str :=
  match o with
  | CEq => lit "==" | CGt => lit ">" | CLt => lit "<" | CGe => lit ">=" | CLe => lit "<=" | CNe => lit "!="
  end.
(** Versions compare by their first different number; missing numbers are zeros. *)
Definition number (ns : list N) (i : nat) : N := nth i ns 0%N.
Definition older (a b : list N) : Prop :=
  exists i, (number a i < number b i)%N /\ forall j, j < i -> number a j = number b j.
Definition same_version (a b : list N) : Prop := forall i, number a i = number b i.
Definition version_holds (o : cmp) (a b : list N) : Prop :=
  match o with
  | CEq => same_version a b
  | CNe => ~ same_version a b
  | CLt => older a b
  | CGt => older b a
  | CLe => older a b \/ same_version a b
  | CGe => older b a \/ same_version a b
  end.
(** A name of a package *)
Definition package_name (uw : char -> bool) (n : str) : Prop :=
  n <> [] /\ forall c, In c n -> is_word uw c = true \/ c = 46%N \/ c = 45%N.
(** All items with their level and whether their list requires all its members *)
Fixpoint marked (required : bool) (level : nat) (d : dep) : list (nat * bool * dep) :=
  (level, required, d) ::
  match d with
  | Dep _ _ => []
  | Group k _ l => flat_map (marked (match k with KAll => true | _ => false end) (S level)) l
  end.
(** A line of the report *)
Definition line_for (x : nat * str * status) (y : nat * bool * dep) : Prop :=
  let '(level, name, st) := x in
  let '(level', required, d) := y in
  level = level' /\ name = label d /\
  match st with
  | Pass => met (fun _ a => a = Some true) d
  | Fail => required = true /\ ~ met (fun _ a => a = Some true) d
  | Missing => required = false /\ ~ met (fun _ a => a = Some true) d
  | Unknown => exists n, d = Dep n None
  end.

(** Python strings as lists of Unicode code points, and the [str] methods the
    modelled code uses.  (Model of CPython built-ins; no file in /repo.) *)
From Coq Require Import List NArith Bool Ascii String Arith.
Local Open Scope list_scope.
Import ListNotations.

(** A character is a code point. *)
Notation char := N (only parsing).
(** A Python [str]. *)
Notation str := (list N).

(** Literals: [lit "abc"] is the Python literal 'abc' (ASCII only). *)
Fixpoint lit (s : string) : str :=
  match s with
  | EmptyString => nil
  | String a r => N_of_ascii a :: lit r
  end.
Arguments lit s%string.
Export StringSyntax.

(** Decidable equality, as a class so that dictionaries can be generic. *)
Class EqDec (A : Type) := {
  eqb : A -> A -> bool;
  eqb_spec : forall x y, reflect (x = y) (eqb x y) }.

Global Arguments eqb {A EqDec} x y : simpl never.

(** Python [==] on characters *)
#[global] Instance EqDec_N : EqDec N := {| eqb := N.eqb; eqb_spec := N.eqb_spec |}.
#[global] Instance EqDec_nat : EqDec nat := {| eqb := Nat.eqb; eqb_spec := Nat.eqb_spec |}.

Fixpoint list_eqb {A} `{EqDec A} (l1 l2 : list A) : bool :=
  match l1, l2 with
  | nil, nil => true
  | x :: r1, y :: r2 => eqb x y && list_eqb r1 r2
  | _, _ => false
  end.

Lemma list_eqb_spec {A} `{EqDec A} : forall x y : list A, reflect (x = y) (list_eqb x y).
Proof.
  induction x as [|a x IH]; destruct y as [|b y]; simpl; try (constructor; congruence).
  destruct (eqb_spec a b); simpl.
  - destruct (IH y); constructor; congruence.
  - constructor; congruence.
Qed.
#[global] Instance EqDec_list {A} `{EqDec A} : EqDec (list A) :=
  {| eqb := list_eqb; eqb_spec := list_eqb_spec |}.

Definition pair_eqb {A B} `{EqDec A} `{EqDec B} (p q : A * B) : bool :=
  eqb (fst p) (fst q) && eqb (snd p) (snd q).
Lemma pair_eqb_spec {A B} `{EqDec A} `{EqDec B} : forall x y : A * B, reflect (x = y) (pair_eqb x y).
Proof.
  intros [a b] [c d]; unfold pair_eqb; simpl.
  destruct (eqb_spec a c); destruct (eqb_spec b d); simpl; constructor; congruence.
Qed.
#[global] Instance EqDec_pair {A B} `{EqDec A} `{EqDec B} : EqDec (A * B) :=
  {| eqb := pair_eqb; eqb_spec := pair_eqb_spec |}.

Definition option_eqb {A} `{EqDec A} (p q : option A) : bool :=
  match p, q with Some a, Some b => eqb a b | None, None => true | _, _ => false end.
Lemma option_eqb_spec {A} `{EqDec A} : forall x y : option A, reflect (x = y) (option_eqb x y).
Proof.
  intros [a|] [b|]; simpl; try (constructor; congruence).
  destruct (eqb_spec a b); constructor; congruence.
Qed.
#[global] Instance EqDec_option {A} `{EqDec A} : EqDec (option A) :=
  {| eqb := option_eqb; eqb_spec := option_eqb_spec |}.

(** [x in l] for a list or set [l] *)
Fixpoint mem {A} `{EqDec A} (x : A) (l : list A) : bool :=
  match l with nil => false | y :: r => eqb x y || mem x r end.

(** [s.startswith(p)] *)
Fixpoint startswith {A} `{EqDec A} (l p : list A) : bool :=
  match p, l with
  | nil, _ => true
  | c :: p', d :: s' => eqb c d && startswith s' p'
  | _ :: _, nil => false
  end.

(** [s.endswith(p)] *)
Definition endswith {A} `{EqDec A} (l p : list A) : bool := startswith (rev l) (rev p).

(** [p in s] for strings (substring test) *)
Fixpoint contains {A} `{EqDec A} (l p : list A) : bool :=
  startswith l p || match l with nil => false | _ :: r => contains r p end.

(** [s[:-n]] for [n > 0] *)
Definition drop_last {A} (n : nat) (l : list A) : list A := firstn (List.length l - n) l.

(** [lstrip], [rstrip], [strip] with a predicate for the stripped characters *)
Fixpoint lstrip_p {A} (f : A -> bool) (l : list A) : list A :=
  match l with nil => nil | c :: r => if f c then lstrip_p f r else l end.
Definition rstrip_p {A} (f : A -> bool) (l : list A) : list A := rev (lstrip_p f (rev l)).
Definition strip_p {A} (f : A -> bool) (l : list A) : list A := rstrip_p f (lstrip_p f l).

(** [s.strip(chars)] for a single character *)
Definition strip_c (c : char) (l : str) : str := strip_p (N.eqb c) l.

(** [str.isspace] for one character: the code points CPython treats as white
    space (used by [strip()] and [split()]). *)
Definition is_space (c : char) : bool :=
  (N.leb 9 c && N.leb c 13) || (N.leb 28 c && N.leb c 32) ||
  N.eqb c 133 || N.eqb c 160 || N.eqb c 5760 ||
  (N.leb 8192 c && N.leb c 8202) || N.eqb c 8232 || N.eqb c 8233 ||
  N.eqb c 8239 || N.eqb c 8287 || N.eqb c 12288.

(** The class \s of the regex package: the Unicode property White_Space, which
    does not contain the separators U+001C to U+001F. *)
Definition rx_space (c : char) : bool := is_space c && negb (N.leb 28 c && N.leb c 31).

(** [s.strip()] *)
Definition strip (l : str) : str := strip_p is_space l.

(** [sep.join(l)] *)
Fixpoint join {A} (sep : list A) (l : list (list A)) : list A :=
  match l with
  | nil => nil
  | x :: nil => x
  | x :: r => x ++ sep ++ join sep r
  end.

(** [s.split(c)] for a one-character separator *)
Fixpoint split_c {A} `{EqDec A} (c : A) (l : list A) : list (list A) :=
  match l with
  | nil => [nil]
  | d :: r =>
      if eqb c d then nil :: split_c c r
      else match split_c c r with
           | nil => [[d]]
           | w :: ws => (d :: w) :: ws
           end
  end.

(** ASCII part of the regex class \w: letters, digits and underscore *)
Definition ascii_word (c : char) : bool :=
  (N.leb 48 c && N.leb c 57) || (N.leb 65 c && N.leb c 90) ||
  N.eqb c 95 || (N.leb 97 c && N.leb c 122).
(** The regex class \w: [uw] says which code points >= 128 are word
    characters (Unicode tables are not modelled: theorems hold for all [uw]);
    white space is never a word character. *)
Definition is_word (uw : char -> bool) (c : char) : bool :=
  if N.ltb c 128 then ascii_word c else uw c && negb (is_space c).

(** Decimal digits of a natural number, as printed by [str(n)] *)
Fixpoint digits_aux (fuel : nat) (n : N) (acc : str) : str :=
  match fuel with
  | O => acc
  | S f => let acc' := (48 + N.modulo n 10)%N :: acc in
           if N.ltb n 10 then acc' else digits_aux f (N.div n 10) acc'
  end.
Definition str_of_N (n : N) : str := digits_aux (S (N.to_nat (N.log2 n))) n nil.
Definition str_of_nat (n : nat) : str := str_of_N (N.of_nat n).

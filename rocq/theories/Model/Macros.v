(** Model of /repo/src/disseminate/utils/string.py:463-541 (replace_macros),
    /repo/src/disseminate/tags/receivers/macros.py and
    /repo/src/disseminate/label_manager/label_manager.py:351-367 *)
From Coq Require Import List Bool Arith NArith.
From Verif.Base Require Import Str Dict PyText Result.
From Verif.Model Require Import Attributes.
Import ListNotations.

Section Macros.
(** Python objects: [isnone] tests for None, [attr] is hasattr/getattr (None if
    the attribute is missing), [show] is str(). *)
Context {Obj : Type}.
Variables (uw : char -> bool) (isnone : Obj -> bool) (none : Obj)
          (attr : Obj -> str -> option Obj) (show : Obj -> str).

Definition at_sign : char := 64%N.
Definition dot : char := 46%N.

(** The class [\w\.] of utils/string.py:465 *)
Definition macro_char (c : char) : bool := is_word uw c || N.eqb c dot.

(** utils/string.py:463-467 [_re_macro] at the start of [x]: the macro, the
    whole match and the rest.  The name is matched greedily; the optional group
    of empty curly brackets is taken when it matches. *)
Definition match_macro (x : str) : option (str * str * str) :=
  match x with
  | c :: r =>
      if N.eqb c at_sign then
        match span macro_char r with
        | (nil, _) => None
        | (name, rest) =>
            match rest with
            | b :: rest1 =>
                if N.eqb b 123 then
                  match span rx_space rest1 with
                  | (ws, e :: rest2) =>
                      if N.eqb e 125 then Some (c :: name, (c :: name) ++ b :: ws ++ [e], rest2)
                      else Some (c :: name, c :: name, rest)
                  | (_, nil) => Some (c :: name, c :: name, rest)
                  end
                else Some (c :: name, c :: name, rest)
            | nil => Some (c :: name, c :: name, rest)
            end
        end
      else None
  | nil => None
  end.

(** utils/string.py:513-516: the first dictionary with the piece *)
Fixpoint find_dicts (piece : str) (dicts : list (dict str Obj)) : option Obj :=
  match dicts with
  | nil => None
  | d :: r => match lookup piece d with Some v => Some v | None => find_dicts piece r end
  end.

(** utils/string.py:510-523: the loop over the pieces; the object found and
    the pieces left *)
Fixpoint resolve (dicts : list (dict str Obj)) (obj : Obj) (pieces : list str) : Obj * list str :=
  match pieces with
  | nil => (obj, nil)
  | piece :: r =>
      let by_attr := match attr obj piece with
                     | Some o => resolve dicts o r
                     | None => (obj, pieces)
                     end in
      if isnone obj then
        match find_dicts piece dicts with
        | Some o => resolve dicts o r
        | None => by_attr
        end
      else by_attr
  end.

(** utils/string.py:498-531 [_substitute] *)
Definition substitute (dicts : list (dict str Obj)) (macro whole : str) : str :=
  let '(obj, pieces) := resolve dicts none (split_c dot macro) in
  if isnone obj then whole
  else show obj ++ concat (map (fun piece => dot :: piece) pieces).

(** utils/string.py:535, 539 [_re_macro.subn(_substitute, s)]: the string and
    the number of matches.  Fuel: every round consumes a character. *)
Fixpoint subn (fuel : nat) (dicts : list (dict str Obj)) (x : str) : str * nat :=
  match fuel with
  | O => (x, 0)
  | S f =>
      match x with
      | nil => (nil, 0)
      | c :: r =>
          match match_macro x with
          | Some (macro, whole, rest) =>
              let '(s, n) := subn f dicts rest in (substitute dicts macro whole ++ s, S n)
          | None => let '(s, n) := subn f dicts r in (c :: s, n)
          end
      end
  end.
Definition pass (dicts : list (dict str Obj)) (x : str) : str * nat := subn (length x) dicts x.

(** utils/string.py:537-539: the loop; None when the rounds run out *)
Fixpoint macro_loop (rounds : nat) (dicts : list (dict str Obj)) (s : str) (num_subs last : nat)
  : option str :=
  if Nat.ltb 0 num_subs && Nat.ltb last num_subs then
    match rounds with
    | O => None
    | S n => let '(s', num') := pass dicts s in macro_loop n dicts s' num' num_subs
    end
  else Some s.

(** utils/string.py:470-541 [replace_macros]; [rounds] bounds the loop *)
Definition replace_macros (rounds : nat) (s : str) (dicts : list (dict str Obj)) : option str :=
  let '(s', n) := pass dicts s in macro_loop rounds dicts s' n 0.
End Macros.

(** Model of the parsing of lists: /repo/src/disseminate/tags/list.py *)
From Coq Require Import List Bool Arith NArith.
From Verif.Base Require Import Str PyText.
From Verif.Model Require Import Attributes.
Import ListNotations.

Definition is_bullet (c : char) : bool := N.eqb c 42 || N.eqb c 45.

(** list.py:15 [re_list] at a position where the anchor matches: the spaces and
    the text after the bullet.  Bullets are no spaces, so that the repetition has
    to take all of them. *)
Definition bullet_at (x : str) : option (str * str) :=
  match span rx_space x with
  | (w, c :: r) => if is_bullet c then Some (w, r) else None
  | (_, nil) => None
  end.
(** The first match in [x]: the text before it, the spaces of the match and the
    text after it.  [bol]: the anchor matches, at the start of the text and after
    each newline. *)
Fixpoint find_bullet (bol : bool) (x : str) : option (str * str * str) :=
  match (if bol then bullet_at x else None) with
  | Some (w, r) => Some (nil, w, r)
  | None =>
      match x with
      | nil => None
      | c :: r => match find_bullet (N.eqb c 10) r with
                  | Some (b, w, y) => Some (c :: b, w, y)
                  | None => None
                  end
      end
  end.

(** list.py:21-80 [parse_string_list].  [n] bounds the number of matches. *)
Fixpoint items (n : nat) (level : nat) (x : str) : list (nat * str) :=
  match n with
  | O => nil
  | S n' =>
      match find_bullet false x with
      | None => [(level, strip x)]
      | Some (b, w, y) => (level, strip b) :: items n' (count_c 32 w) y
      end
  end.
Definition parse_string_list (x : str) : list (nat * str) :=
  match find_bullet true x with
  | None => nil
  | Some (_, w, y) => items (S (length y)) (count_c 32 w) y
  end.

(** list.py:18 [re_multiline_items] at the start of [x]: the length of the match.
    The last repetition takes all it can. *)
Definition multi (x : str) : option nat :=
  first_match (fun a : str * str =>
    first_match (fun b : str * str =>
      match plus_greedy rx_space (snd b) with
      | c :: _ => Some (length (fst a) + length (fst b) + length (fst c))
      | nil => None
      end) (plus_greedy (N.eqb 10) (snd a))) (star_greedy rx_space x).
(** its substitution by a space; [skip]: the characters of the match that are left *)
Fixpoint clean_from (skip : nat) (x : str) : str :=
  match x with
  | nil => nil
  | c :: r =>
      match skip with
      | S k => clean_from k r
      | O => match multi x with
             | Some n => 32%N :: clean_from (n - 1) r
             | None => c :: clean_from 0 r
             end
      end
  end.
Definition clean (x : str) : str := clean_from 0 x.
(** list.py:80-104 [clean_string_list] *)
Definition clean_string_list (l : list (nat * str)) : list (nat * str) := map (fun p => (fst p, clean (snd p))) l.

(** list.py:107-131 [normalize_levels] with the spaces of the settings (2).
    Simplification: the division and its ceiling are exact (Python's floats are,
    up to 2^53). *)
Definition ceil_div (a b : nat) : nat := (a + (b - 1)) / b.
Definition min_level (l : list (nat * str)) : nat :=
  match map fst l with nil => 0 | a :: r => fold_left Nat.min r a end.
Definition normalize (l : list (nat * str)) : list (nat * str) :=
  map (fun p => (ceil_div (fst p - min_level l) 2, snd p)) l.

(** list.py:222-236 [List.__init__]: the levels and texts of the items *)
Definition list_items (x : str) : list (nat * str) := normalize (clean_string_list (parse_string_list x)).

(** What the command lines of converters should be *)
From Coq Require Import List Bool Arith NArith ZArith.
From Verif.Base Require Import Str PurePath.
From Verif.Model Require Import Commands.
Import ListNotations.

(** A text that can stand as one argument: not empty, without white space *)
Definition one_word (s : str) : Prop := s <> nil /\ forall c, In c s -> is_space c = false.
(** A path that is passed as it is: its text is not changed by the sanitizer, does not begin or end with a
    character that is stripped, and is one word *)
Definition plain_text (s : str) : Prop :=
  one_word s /\ (forall c r, s = c :: r -> ~ In c (lit "-*`")) /\ (forall c r, s = r ++ [c] -> ~ In c (lit "-*`")).
Definition plain_path (sanitize : str -> str) (p : path) : Prop := sanitize (path_str p) = path_str p /\ plain_text (path_str p).

(** The value of an option is that of its first occurrence *)
Definition option_is (name : str) (v : val) (ps : list arg) : Prop :=
  exists l r, ps = l ++ APair name v :: r /\ forall w, ~ In (APair name w) l.
Definition no_option (name : str) (ps : list arg) : Prop := forall w, ~ In (APair name w) ps.
(** The crop asked for *)
Definition crop_is (v : val) (ps : list arg) : Prop :=
  option_is (lit "crop") v ps \/ no_option (lit "crop") ps /\ option_is (lit "crop_percentage") v ps.
Definition crop_asked (ps : list arg) : Prop := exists v, crop_is v ps.
(** What number a text stands for *)
Definition number_of (s : str) : Z :=
  let dec := fold_left (fun a c => (10 * a + (c - 48)))%N in
  match s with
  | nil => 0%Z
  | c :: r => if N.eqb c 45 then (- Z.of_N (dec r 0%N))%Z else Z.of_N (dec s 0%N)
  end.

(** Verbatim text, commands and elements *)
From Coq Require Import List Bool Arith NArith.
From Verif.Base Require Import Str Dict.
From Verif.Model Require Import Attributes.
From Verif.Spec Require Import Attributes.
Import ListNotations.

(** tex reads [c] from [x]: a verb command, between two equal characters that are
    neither letters, stars nor spaces and do not occur between, on a line. *)
Definition verb_char (d : char) : Prop := ascii_word d = false /\ is_space d = false /\ d <> 42%N.
Definition reads_verb (x c : str) : Prop :=
  exists d, verb_char d /\ x = lit "\verb" ++ d :: c ++ [d] /\ ~ In d c /\ ~ In 10%N c.
(** tex reads a verbatim environment up to the first end. *)
Definition first_before (sep b x : str) : Prop :=
  exists post, x = b ++ sep ++ post /\ forall b' post', x = b' ++ sep ++ post' -> length b <= length b'.
Definition reads_verbatim (x c : str) : Prop :=
  exists pre y, x = pre ++ lit "\begin{verbatim}" ++ y /\ first_before (lit "\end{verbatim}") c y.

(** Entries in braces, and in brackets *)
Definition in_braces (rs : list (str * aval)) : str := concat (map (fun e => 123%N :: arg_text e ++ [125%N]) rs).
Definition in_brackets (os : list (str * aval)) : str :=
  match os with [] => [] | _ => 91%N :: join (lit ", ") (map opt_text os) ++ [93%N] end.
(** All values are among those of the attributes. *)
Definition from_attributes (d rs : attrs) : Prop := forall p v, lookup p rs = Some v -> exists k, lookup k d = Some v.
(** The entry [e] answers the request [a]. *)
Definition answers (d : attrs) (t : option str) (a : areq) (e : str * aval) : Prop :=
  exists k, lookup k d = Some (snd e) /\ requested d t a k /\
            (k = fst e \/ exists u, known_target u /\ k = for_target (fst e) u).
(** The attribute names a table of elements has for an element *)
Definition names (tb : dict str (list areq)) (n : str) : list str :=
  match lookup n tb with
  | Some l => flat_map (fun a => match a with RKey k => [k] | RPos _ => [] end) l
  | None => []
  end.
(** A table of element attributes: all are names, not specific to a target, each once. *)
Definition named (tb : dict str (list areq)) : Prop :=
  forall n l, lookup n tb = Some l -> l = map RKey (names tb n) /\ Forall plain (names tb n) /\
                                       ~ In (lit "self") (names tb n) /\ NoDup (names tb n).
(** The elements that may be used *)
Definition permitted (args opts : dict str (list areq)) (n : str) : Prop := In n (map fst args) \/ In n (map fst opts).

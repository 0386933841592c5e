(** Headers as a user writes them, and what it means to read them back. *)
From Coq Require Import List Bool Arith NArith.
From Verif.Base Require Import Str Dict PyText.
From Verif.Model Require Import StrToDict.
Import ListNotations.

(** A nested dictionary of texts. *)
Inductive htree :=
| HLeaf (value : str)
| HNode (entries : list (str * htree)).

Definition spaces (n : nat) : str := repeat 32%N n.

(** The lines of a dictionary indented by [n] spaces: 'key: value' for a text;
    'key:' followed by the entries, indented by two more, for a dictionary. *)
Fixpoint lines_of (n : nat) (k : str) (t : htree) : list str :=
  match t with
  | HLeaf v => [spaces n ++ k ++ lit ": " ++ v]
  | HNode es => (spaces n ++ k ++ lit ":") ::
                (fix go es := match es with
                              | nil => nil
                              | (k', t') :: r => lines_of (n + 2) k' t' ++ go r
                              end) es
  end.
Definition lines_of_entries (n : nat) (es : list (str * htree)) : list str :=
  flat_map (fun e => lines_of n (fst e) (snd e)) es.
(** The text of a dictionary. *)
Definition written (n : nat) (es : list (str * htree)) : str := join [10%N] (lines_of_entries n es).

Definition is_quote (c : char) : bool := N.eqb c 39 || N.eqb c 34.

(** A key: not empty, no white space around it, one line, no colon, no
    backslash, and not starting with a quote. *)
Definition wf_key (k : str) : Prop :=
  (exists c r, k = c :: r /\ is_space c = false /\ is_quote c = false) /\
  (forall c r, k = r ++ [c] -> is_space c = false) /\
  Forall (fun c => is_linebreak c = false /\ c <> 58%N /\ c <> 92%N) k.

(** A value: one line, without leading white space or quote, and without an
    escaped colon.  It may be empty, and may have colons. *)
Definition wf_value (v : str) : Prop :=
  (forall c r, v = c :: r -> is_space c = false /\ is_quote c = false) /\
  Forall (fun c => is_linebreak c = false) v /\
  (forall a b, v <> a ++ 92%N :: 58%N :: b).

(** A dictionary: well-formed keys, all different, at every level. *)
Inductive wf_tree : htree -> Prop :=
| wf_leaf v : wf_value v -> wf_tree (HLeaf v)
| wf_node es : Forall (fun e => wf_key (fst e) /\ wf_tree (snd e)) es ->
    NoDup (map fst es) -> wf_tree (HNode es).

(** The text reads as the dictionary: the same keys in the same order, and the
    text under every key reads as the entry. *)
Inductive reads_as : str -> htree -> Prop :=
| reads_leaf v : reads_as v (HLeaf v)
| reads_node text es :
    Forall2 (fun (kv : str * str) (e : str * htree) =>
               fst kv = fst e /\ reads_as (snd kv) (snd e))
            (str_to_dict true text) es ->
    reads_as text (HNode es).

(** A line that cannot be mistaken for the end of a header: not blank, and not
    starting with a dash. *)
Definition header_line (l : str) : Prop :=
  (exists sp c r, l = sp ++ c :: r /\ Forall (fun d => is_space d = true) sp /\
     is_space c = false /\ c <> 45%N) /\ ~ In 10%N l.

(** No key, at any level, starts with a dash. *)
Inductive no_dash : htree -> Prop :=
| no_dash_leaf v : no_dash (HLeaf v)
| no_dash_node es : Forall (fun e => hd 0%N (fst e) <> 45%N /\ no_dash (snd e)) es ->
    no_dash (HNode es).

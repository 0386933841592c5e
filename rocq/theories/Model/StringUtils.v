(** Model of /repo/src/disseminate/utils/string.py (without str_to_dict, see
    StrToDict.v, and replace_macros, see Macros.v) *)
From Coq Require Import List Bool Arith NArith.
From Verif.Base Require Import Str PyText Result.
Import ListNotations.

Definition nl : char := 10%N.

(** utils/string.py:86-91 [nicejoin] *)
Definition nicejoin (sep term : str) (items : list str) : str :=
  if Nat.ltb 1 (length items) then
    join sep (drop_last 1 items) ++ term ++ last items nil
  else if Nat.eqb (length items) 1 then hd nil items
  else nil.

(** utils/string.py:119 [space_indent] *)
Definition space_indent (number : nat) (s : str) : str :=
  join [nl] (map (fun t => repeat 32%N number ++ t) (splitlines s)).

(** utils/string.py:148, 172 [strip_multi_newlines]: every maximal run of
    newlines becomes one newline.  [prev] says that the last character was a
    newline. *)
Fixpoint strip_multi_from (prev : bool) (s : str) : str :=
  match s with
  | nil => nil
  | c :: r =>
      if N.eqb c nl then
        if prev then strip_multi_from true r else c :: strip_multi_from true r
      else c :: strip_multi_from false r
  end.
Definition strip_multi_newlines (s : str) : str := strip_multi_from false s.

(** utils/string.py:201-208: one line of [strip_end_quotes] *)
Fixpoint strip_quotes_line (quotes : list char) (s : str) : str :=
  match quotes with
  | nil => s
  | q :: qs =>
      if Nat.even (count_c q s) then
        let pieces := split_c q s in
        let p0 := hd nil pieces in
        let pl := last pieces nil in
        if eqb (strip p0) nil && eqb (strip pl) nil then
          p0 ++ join [q] (drop_last 1 (tl pieces)) ++ pl
        else strip_quotes_line qs s
      else strip_quotes_line qs s
  end.
(** utils/string.py:197-208 [strip_end_quotes]; the pieces of [splitlines] have
    no newline, so the recursive call does not recurse further *)
Definition strip_end_quotes (s : str) : str :=
  let one := strip_quotes_line [39%N; 34%N] in
  if mem nl s then join [nl] (map one (splitlines s)) else one s.

(** utils/string.py:270, 274: [all(i.startswith(base) for i in strings)] *)
Definition base_found (base : str) (strings : list str) : bool :=
  forallb (fun i => startswith i base) strings.
(** utils/string.py:272-274: the loop; every round drops a character of
    [base], so [length base] rounds suffice *)
Fixpoint base_loop (rounds : nat) (base : str) (strings : list str) : str :=
  match rounds with
  | O => base
  | S n =>
      if negb (base_found base strings) && negb (eqb base nil)
      then base_loop n (drop_last 1 base) strings
      else base
  end.
(** utils/string.py:246-276 [find_basestring]; [strings[0]] raises IndexError
    for an empty list *)
Definition find_basestring (strings : list str) : result str :=
  match strings with
  | nil => Raise IndexError
  | base :: _ => Ok (base_loop (length base) base strings)
  end.

(** utils/string.py:279-323 [str_to_list] *)
Definition str_to_list (string : str) : list str :=
  let pieces_semicolon := split_c 59%N string in
  if Nat.ltb 1 (length pieces_semicolon) then map strip pieces_semicolon
  else
    let pieces_newline :=
      filter (fun p => negb (eqb p nil)) (map strip (split_c nl string)) in
    if Nat.ltb 1 (length pieces_newline) then pieces_newline
    else
      let pieces_comma := split_c 44%N string in
      if Nat.ltb 1 (length pieces_comma) then map strip pieces_comma
      else [string].

(** The values [group_strings] works on: strings, tags (objects with a
    [content]), lists and other objects, of which only the identity and the
    truth value matter. *)
Inductive node :=
| NStr (s : str)
| NTag (id : nat) (content : node)
| NList (l : list node)
| NObj (id : nat) (truth : bool).

(** Python [bool(x)]; tags define __len__ (tags/tag.py:124-128): a tag whose
    content is an empty list is false, all others are true *)
Definition truthy (v : node) : bool :=
  match v with
  | NStr s => negb (eqb s nil)
  | NTag _ (NList nil) => false
  | NTag _ _ => true
  | NList l => match l with nil => false | _ => true end
  | NObj _ t => t
  end.

(** the string collected by [groupby] so far, as list items *)
Definition flush (run : option str) : list node :=
  match run with Some s => [NStr s] | None => nil end.

(** utils/string.py:437-460 [group_strings].  The three passes over a list
    (drop the false items 441-443, join runs of strings 446-453, recurse into
    the other items 456-458) are done in one traversal: [run] is the run of
    strings collected so far.  The list is changed in place and returned; only
    the returned value is modelled. *)
Fixpoint group_strings (v : node) : node :=
  match v with
  | NTag i c => NTag i (group_strings c)
  | NList l =>
      NList ((fix go (run : option str) (l : list node) : list node :=
                match l with
                | nil => flush run
                | x :: r =>
                    if negb (truthy x) then go run r
                    else match x with
                         | NStr s => go (Some (match run with Some p => p | None => nil end ++ s)) r
                         | _ => flush run ++ group_strings x :: go None r
                         end
                end) None l)
  | _ => v
  end.

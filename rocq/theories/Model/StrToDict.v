(** Model of /repo/src/disseminate/utils/string.py:326-414 (str_to_dict) and
    /repo/src/disseminate/context/utils.py *)
From Coq Require Import List Bool Arith NArith.
From Verif.Base Require Import Str Dict PyText Result.
From Verif.Model Require Import StringUtils.
Import ListNotations.

Definition colon : char := 58%N.
Definition backslash : char := 92%N.
Definition dash : char := 45%N.

(** utils/string.py:326-330 [_re_entry.match(line)]: the length of the leading
    space, the key and the value.  The dot matches every character of a line
    (lines come from [splitlines], so they have no newline). *)
Definition match_entry (line : str) : option (nat * str * str) :=
  first_match (fun sp : str * str =>
    first_match (fun key : str * str =>
      match snd key with
      | c :: r =>
          if N.eqb c colon && negb (N.eqb (last (fst key) 0%N) backslash) then
            (* \s* and .* match the rest whatever it is *)
            Some (length (fst sp), fst key, lstrip_p rx_space r)
          else None
      | nil => None
      end) (plus_lazy (fun _ => true) (snd sp))) (star_greedy rx_space line).

(** The state of the loop: the dictionary, the entry that continuation lines
    are added to ([current_entry_list] is a list in the dictionary, or a list
    that is dropped when there is none yet), and [current_spaces]. *)
Definition sd_state : Type := dict str (list str) * option str * option nat.

(** [current_entry_list.append(line)] *)
Definition append_line (line : str) (st : sd_state) : sd_state :=
  match st with
  | (d, Some key, sp) =>
      (set key (match lookup key d with Some l => l | None => nil end ++ [line]) d, Some key, sp)
  | (d, None, sp) => (d, None, sp)
  end.

(** utils/string.py:375-405: one round of the loop *)
Definition sd_line (st : sd_state) (line : str) : sd_state :=
  let '(d, cur, spaces) := st in
  let m := match_entry line in
  let line := match spaces with Some n => skipn n line | None => line end in
  let line := replace2 backslash colon [colon] line in
  match m with
  | Some (space_level, key, value) =>
      let key := strip key in
      if match spaces with Some n => Nat.ltb n space_level | None => false end
      then append_line line st
      else
        let d := match lookup key d with
                 | Some _ => d
                 | None => set key nil d          (* setdefault *)
                 end in
        append_line value (d, Some key, Some space_level)
  | None => append_line line st
  end.

(** utils/string.py:408-412: the text of an entry *)
Definition entry_text (strip_quotes : bool) (v : list str) : str :=
  let t := strip_c nl (join [nl] v) in
  if strip_quotes then strip_end_quotes t else t.

(** utils/string.py:333-414 [str_to_dict] *)
Definition str_to_dict (strip_quotes : bool) (string : str) : dict str str :=
  let '(d, _, _) := fold_left sd_line (splitlines string) (nil, None, None) in
  map (fun kv => (fst kv, entry_text strip_quotes (snd kv))) d.

(** context/utils.py:7-9 [re_header_block.match(string)]: the header and what
    follows it.  The dot matches newlines (DOTALL); the closing dashes repeat
    the opening ones. *)
Definition match_header (x : str) : option (str * str) :=
  first_match (fun sp : str * str =>
    first_match (fun ds : str * str =>
      if Nat.ltb (length (fst ds)) 3 then None else
      first_match (fun sp2 : str * str =>
        match snd sp2 with
        | c :: r =>
            if N.eqb c nl then
              first_match (fun hd : str * str =>
                match snd hd with
                | c2 :: r2 =>
                    if N.eqb c2 nl then
                      first_match (fun sp3 : str * str =>
                        match eat (fst ds) (snd sp3) with
                        | Some rest =>
                            Some (fst hd, match rest with
                                          | c3 :: rest' => if N.eqb c3 nl then rest' else rest
                                          | nil => nil
                                          end)
                        | None => None
                        end) (star_greedy rx_space r2)
                    else None
                | nil => None
                end) (plus_lazy (fun _ => true) r)
            else None
        | nil => None
        end) (star_greedy rx_space (snd ds)))
      (star_greedy (N.eqb dash) (snd sp)))
    (star_greedy rx_space x).

(** context/utils.py:32-62 [load_from_string] *)
Definition load_from_string (string : str) : option str * dict str str :=
  match match_header string with
  | Some (header, rest) => (Some rest, str_to_dict true header)
  | None => (None, str_to_dict true string)
  end.

(** context/utils.py:12-29 [find_header_entries]: only string values can have a
    header; the set of keys is modelled by the list of keys in order. *)
Definition find_header_entries {V} (as_str : V -> option str) (context : dict str V) : list str :=
  map fst (filter (fun kv => match as_str (snd kv) with
                             | Some v => match match_header v with Some _ => true | None => false end
                             | None => false
                             end) context).

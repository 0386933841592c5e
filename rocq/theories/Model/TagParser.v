(** Model of /repo/src/disseminate/tags/receivers/content.py *)
From Coq Require Import List Bool Arith NArith.
From Verif.Base Require Import Str PyText Result.
From Verif.Model Require Import Attributes.
Import ListNotations.

(** The contents of tags: a string, a tag or a list of both.  Tags keep their
    name and the string of attributes as it was written (None: no attributes;
    see Model/Attributes.v for their parsing). *)
Inductive content :=
| Text (s : str)
| Tag (name : str) (attrs : option str) (c : content)
| Items (l : list content).

Section TagParser.
(** [uw]: the word characters outside ASCII; [verbatim]: the tag names whose
    class has process_content = False (tags/tag.py:91, text.py:300, img.py:43,
    data.py:55, label.py:237, code.py:20, asy.py:12). *)
Variables (uw : char -> bool) (verbatim : str -> bool).

(** [A-Za-z0-9] *)
Definition alnum (c : char) : bool :=
  (N.leb 65 c && N.leb c 90) || (N.leb 97 c && N.leb c 122) || (N.leb 48 c && N.leb c 57).

(** content.py:11-14 [re_open_tag] at the start of [x]: the name, the
    attributes, whether there is an open brace, and the rest.  Everything after
    the name is optional and taken when it is there. *)
Definition match_attrs (x : str) : option str * str :=
  match x with
  | c :: r =>
      if N.eqb c 91 then
        match span (fun d => negb (N.eqb d 93)) r with
        | (d :: i, e :: r') => (Some (c :: d :: i ++ [e]), r')
        | _ => (None, x)
        end
      else (None, x)
  | nil => (None, x)
  end.
Definition match_open (x : str) : option (str * option str * bool * str) :=
  match x with
  | a :: c :: r =>
      if N.eqb a 64 && alnum c then
        let '(w, r1) := span (is_word uw) r in
        let '(attrs, r2) := match_attrs r1 in
        match r2 with
        | b :: r3 => if N.eqb b 123 then Some (c :: w, attrs, true, r3) else Some (c :: w, attrs, false, r2)
        | nil => Some (c :: w, attrs, false, r2)
        end
      else None
  | _ => None
  end.
(** [re_open_tag.search(x)]: the text before the first match, and the match *)
Fixpoint search_open (x : str) : option (str * (str * option str * bool * str)) :=
  match match_open x with
  | Some m => Some (nil, m)
  | None => match x with
            | c :: r => match search_open r with
                        | Some (sofar, m) => Some (c :: sofar, m)
                        | None => None
                        end
            | nil => None
            end
  end.

(** content.py:106-120: the loop over the braces.  [level] is brace_level.  The
    text before the closing brace and the text after it; None when the loop ends
    with an open brace (no more braces, or brace_level = 10). *)
Fixpoint close_brace (level : nat) (x : str) : option (str * str) :=
  match x with
  | nil => None
  | c :: r =>
      if N.eqb c 125 then
        match level with
        | S (S _ as l) => match close_brace l r with Some (i, r') => Some (c :: i, r') | None => None end
        | _ => Some (nil, r)
        end
      else if N.eqb c 123 then
        if Nat.ltb (S level) 10 then
          match close_brace (S level) r with Some (i, r') => Some (c :: i, r') | None => None end
        else None
      else match close_brace level r with Some (i, r') => Some (c :: i, r') | None => None end
  end.

(** content.py:88, 151: strings are only added if they are not empty *)
Definition text_item (s : str) : list content := match s with nil => nil | _ => [Text s] end.

(** content.py:158-164: a list of one item is unwrapped, an empty one is '' *)
Definition simplify (l : list content) : content :=
  match l with nil => Text nil | [c] => c | _ => Items l end.

(** content.py:70-152: the items of a text.  Making a tag (tags/tag.py:94-101)
    emits tag_created, whose receiver process_content parses the content of the
    new tag, unless its class disables it.  Other receivers (hash, macros,
    typography, paragraphs) and the constructors of subclasses are not part of
    this function.  group_strings (line 155) changes nothing here (see
    [group_items] in Proof/TagParser.v).  Fuel: RecursionError when it runs out. *)
Fixpoint parse_items (fuel : nat) (x : str) : result (list content) :=
  match fuel with
  | O => Raise RecursionError
  | S f =>
      match search_open x with
      | None => Ok (text_item x)
      | Some (sofar, (name, attrs, opened, rest)) =>
          do ir <- (if opened then match close_brace 1 rest with
                                   | Some p => Ok p
                                   | None => Raise TagError
                                   end
                    else Ok (nil, rest)) ;
          do c <- (if verbatim name then Ok (Text (fst ir))
                   else do l <- parse_items f (fst ir) ; Ok (simplify l)) ;
          do items <- parse_items f (snd ir) ;
          Ok (text_item sofar ++ Tag name attrs c :: items)
      end
  end.
Definition parse_text (x : str) : result content :=
  do l <- parse_items (S (length x)) x ; Ok (simplify l).

(** list(map(parse, l)) *)
Definition map_r {A B} (f : A -> result B) : list A -> result (list B) :=
  fix go l := match l with
              | nil => Ok nil
              | x :: r => do y <- f x ; do ys <- go r ; Ok (y :: ys)
              end.

(** settings.py: tag_max_depth *)
Definition tag_max_depth : nat := 30.

(** content.py:27-68 [parse_tags] for contents that may already be parsed *)
Fixpoint parse_tags (level : nat) (c : content) : result content :=
  if Nat.leb tag_max_depth level then Raise TagError
  else match c with
       | Text s => parse_text s
       | Items l => do l' <- map_r (parse_tags (S level)) l ; Ok (Items l')
       | Tag name attrs (Items l) =>
           do l' <- map_r (parse_tags (S level)) l ; Ok (Tag name attrs (Items l'))
       | Tag name attrs c' => do c'' <- parse_tags (S level) c' ; Ok (Tag name attrs c'')
       end.

(** content.py:18-24 [process_content] *)
Definition process_content (c : content) : result content := parse_tags 1 c.
End TagParser.

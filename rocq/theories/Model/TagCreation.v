(** Model of the creation of tags from a text: the receivers of the signal
    tag_created (/repo/src/disseminate/tags/receivers/) one after the other, for
    a tag, for the tags in it, and for the paragraphs made around them, and of
    /repo/src/disseminate/document/receivers/process_tags.py *)
From Coq Require Import List Bool Arith NArith.
From Verif.Base Require Import Str Dict PyText Result.
From Verif.Model Require Import Attributes Typography Paragraphs TagParser.
Import ListNotations.

Section TagCreation.
(** [uw]: the word characters outside ASCII.  The attributes of the class of a
    tag (tags/tag.py:90-93 and the subclasses), by the name of the tag:
    [verbatim] process_content is False, [typo] process_typography, [include]
    include_paragraphs; [pars]: the tag's name is in the context's entry
    'process_paragraphs' (paragraphs.py:12).  [mac]: replace_macros with the
    context of the tag (see Model/Macros.v), for contexts with which it ends. *)
Variables (uw : char -> bool) (verbatim typo include pars : str -> bool) (mac : str -> str).

(** receivers/typography.py:24-70 [process_tag_typography] *)
Fixpoint set_typography (c : TagParser.content) : TagParser.content :=
  match c with
  | Text s => Text (typography uw s)
  | Tag n a c' => Tag n a (if typo n then set_typography c' else c')
  | Items l => Items (map set_typography l)
  end.

(** receivers/content.py:70-152 as in [TagParser.parse_items], except that a tag
    is made (line 140) with [mk], which gives the content of the new tag *)
Fixpoint items_with (mk : str -> TagParser.content -> result TagParser.content) (fuel : nat) (x : str)
  : result (list TagParser.content) :=
  match fuel with
  | O => Raise RecursionError
  | S f =>
      match search_open uw x with
      | None => Ok (text_item x)
      | Some (sofar, (name, attrs, opened, rest)) =>
          do ir <- (if opened then match close_brace 1 rest with
                                   | Some p => Ok p
                                   | None => Raise TagError
                                   end
                    else Ok (nil, rest)) ;
          do c <- mk name (Text (fst ir)) ;
          do items <- items_with mk f (snd ir) ;
          Ok (text_item sofar ++ Tag name attrs c :: items)
      end
  end.
(** receivers/content.py:27-68 [parse_tags] *)
Fixpoint parse_with (mk : str -> TagParser.content -> result TagParser.content) (level : nat)
         (c : TagParser.content) : result TagParser.content :=
  if Nat.leb tag_max_depth level then Raise TagError
  else match c with
       | Text s => do l <- items_with mk (S (length s)) s ; Ok (simplify l)
       | Items l => do l' <- map_r (parse_with mk (S level)) l ; Ok (Items l')
       | Tag name attrs (Items l) =>
           do l' <- map_r (parse_with mk (S level)) l ; Ok (Tag name attrs (Items l'))
       | Tag name attrs c' => do c'' <- parse_with mk (S level) c' ; Ok (Tag name attrs c'')
       end.

(** receivers/paragraphs.py:56-104 [group_paragraphs], 137-151
    [clean_paragraphs], as in Model/Paragraphs.v but with whole tags.  The roles
    of paragraphs (lines 181-208) are left out; see Model/Paragraphs.v. *)
Definition close_sub (sub : list TagParser.content) : list TagParser.content :=
  match sub with nil => nil | _ => [Items sub] end.
Fixpoint add_texts (sub : list TagParser.content) (ps : list str)
  : list TagParser.content * list TagParser.content :=
  match ps with
  | nil => (nil, sub)
  | p :: ps' =>
      let sub := match p with nil => sub | _ => sub ++ [Text p] end in
      match ps' with
      | nil => (nil, sub)
      | _ => let '(gs, sub') := add_texts nil ps' in (close_sub sub ++ gs, sub')
      end
  end.
Fixpoint grouped_from (sub l : list TagParser.content) : list TagParser.content :=
  match l with
  | nil => close_sub sub
  | Text s :: r => let '(gs, sub') := add_texts sub (split_para 0 s) in gs ++ grouped_from sub' r
  | Tag n a c :: r =>
      if include n then grouped_from (sub ++ [Tag n a c]) r
      else close_sub sub ++ Tag n a c :: grouped_from nil r
  | Items i :: r => close_sub sub ++ Items i :: grouped_from nil r
  end.
Definition blank_text (c : TagParser.content) : bool :=
  match c with Text s => eqb (strip s) nil | _ => false end.
Definition cleaned (l : list TagParser.content) : list TagParser.content :=
  filter (fun i => match i with Items sub => negb (forallb blank_text sub) | _ => true end) l.
(** receivers/paragraphs.py:247-258: a paragraph tag for every list, with no
    attributes ('') *)
Definition one_or_list (l : list TagParser.content) : TagParser.content :=
  match l with [i] => i | _ => Items l end.
Definition make_paragraphs (mkp : TagParser.content -> result TagParser.content)
           (l : list TagParser.content) : result (list TagParser.content) :=
  map_r (fun i => match i with
                  | Items sub => do c <- mkp (one_or_list sub) ; Ok (Tag (lit "p") (Some nil) c)
                  | _ => Ok i
                  end) l.
(** receivers/paragraphs.py:211-268 [process_paragraph_tags] *)
Definition paragraphs_with (mkp : TagParser.content -> result TagParser.content)
           (c : TagParser.content) : result TagParser.content :=
  match c with
  | Tag _ _ _ => Ok c
  | Text s => do g <- make_paragraphs mkp (cleaned (grouped_from nil [Text s])) ; Ok (one_or_list g)
  | Items l => do g <- make_paragraphs mkp (cleaned (grouped_from nil l)) ; Ok (one_or_list g)
  end.

(** tags/tag.py:96-103 [Tag.__init__] and tags/signals.py:14-35 [emit]: the
    content of a new tag after the receivers process_macros (macros.py:8-20),
    process_content (content.py:17-24), process_typography (typography.py:9-12)
    and process_paragraphs (paragraphs.py:9-18).  The hash of the content
    (hash.py) is left out, and so are the constructors of subclasses, which do
    more than this for headings, lists, tables and others.  Fuel: RecursionError
    when it runs out. *)
Fixpoint make (fuel : nat) (name : str) (c : TagParser.content) : result TagParser.content :=
  match fuel with
  | O => Raise RecursionError
  | S f =>
      let c1 := match c with Text s => Text (mac s) | _ => c end in
      do c2 <- (if verbatim name then Ok c1 else parse_with (make f) 1 c1) ;
      let c3 := if typo name then set_typography c2 else c2 in
      if pars name then paragraphs_with (make f (lit "p")) c3 else Ok c3
  end.

(** document/receivers/process_tags.py:8-40 [process_tags]: the values of a
    context are texts, tags or others; [ks] are the keys of the context that are
    in 'process_context_tags', in the order in which the set is enumerated *)
Inductive value := VText (s : str) | VTag (name : str) (c : TagParser.content) | VOther (n : nat).
Fixpoint process_tags (fuel : nat) (ks : list str) (context : dict str value) : result (dict str value) :=
  match ks with
  | nil => Ok context
  | k :: r =>
      match lookup k context with
      | Some (VText s) =>
          do c <- make fuel k (Text s) ;
          process_tags fuel r (set k (VTag k c) context)
      | Some _ => process_tags fuel r context
      | None => Raise KeyError
      end
  end.
End TagCreation.

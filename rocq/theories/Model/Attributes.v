(** Model of /repo/src/disseminate/attributes/attributes.py and
    /repo/src/disseminate/utils/types.py *)
From Coq Require Import List Bool Arith NArith.
From Verif.Base Require Import Str Dict Sort Result.
From Verif.Model Require Import ListUtils.
Import ListNotations.

(** utils/types.py:6-23: the PositionalValue classes *)
Inductive ptype := PAny | PInt | PFloat | PStr.

(** utils/types.py:26-52 [ispositional(p, t)] when [p] is one of the classes:
    [issubclass(p, t)] *)
Definition subclass (p t : ptype) : bool :=
  match t, p with
  | PAny, _ => true
  | PInt, PInt => true
  | PFloat, PFloat => true
  | PStr, PStr => true
  | _, _ => false
  end.

(** [str(cls)] of the classes *)
Definition ptype_str (p : ptype) : str :=
  match p with
  | PAny => lit "<class 'disseminate.utils.types.PositionalValue'>"
  | PInt => lit "<class 'disseminate.utils.types.IntPositionalValue'>"
  | PFloat => lit "<class 'disseminate.utils.types.FloatPositionalValue'>"
  | PStr => lit "<class 'disseminate.utils.types.StringPositionalValue'>"
  end.

(** Attribute values: strings, positional classes, and other objects, of which
    only the text [str()] gives is modelled. *)
Inductive aval := VStr (x : str) | VPos (p : ptype) | VObj (repr : str).

(** [str(v)] *)
Definition aval_str (v : aval) : str :=
  match v with VStr x => x | VPos p => ptype_str p | VObj r => r end.

(** Attributes are dictionaries with string keys (attributes.py:113). *)
Definition attrs := dict str aval.

(** What may be asked for: a key, or a positional class. *)
Inductive areq := RKey (k : str) | RPos (p : ptype).

Definition ptype_eqb (p q : ptype) : bool :=
  match p, q with
  | PAny, PAny | PInt, PInt | PFloat, PFloat | PStr, PStr => true
  | _, _ => false
  end.
Lemma ptype_eqb_spec p q : reflect (p = q) (ptype_eqb p q).
Proof. destruct p, q; constructor; congruence. Qed.
#[global] Instance EqDec_ptype : EqDec ptype := {| eqb := ptype_eqb; eqb_spec := ptype_eqb_spec |}.

Definition areq_eqb (a b : areq) : bool :=
  match a, b with
  | RKey x, RKey y => eqb x y
  | RPos p, RPos q => eqb p q
  | _, _ => false
  end.
Lemma areq_eqb_spec a b : reflect (a = b) (areq_eqb a b).
Proof.
  destruct a as [x|p], b as [y|q]; simpl; try (constructor; congruence).
  - destruct (eqb_spec x y); constructor; congruence.
  - destruct (eqb_spec p q); constructor; congruence.
Qed.
#[global] Instance EqDec_areq : EqDec areq := {| eqb := areq_eqb; eqb_spec := areq_eqb_spec |}.

(** settings.py:67 [attribute_target_sep] *)
Definition sep : str := lit ".".

(** attributes.py:60-61: the keys of settings.tracked_deps (settings.py)
    without the dots.  The code iterates over a set; the order is immaterial
    because at most one of the terminators can match (proved in
    Proof/Attributes.v). *)
Definition targets : list str := [lit "html"; lit "xhtml"; lit "tex"; lit "css"].

(** attributes.py:62-67: the loop over the targets *)
Fixpoint strip_targets (ts : list str) (attr : str) : str :=
  match ts with
  | nil => attr
  | t :: r =>
      let term := sep ++ t in
      if endswith attr term then drop_last (length term) attr
      else strip_targets r attr
  end.

(** attributes.py:21-67 [strip_attr], for strings; other objects are returned
    unchanged *)
Definition strip_attr (attr : str) : str :=
  if contains attr sep then strip_targets targets attr else attr.

(** attributes.py:70-100 [is_target_specific] *)
Definition is_target_specific (attr : str) : bool := negb (eqb attr (strip_attr attr)).

(** ** Loading: attributes.py:103-110 and 151-194 *)

(** maximal prefix satisfying [f], and the rest (greedy regex repetition) *)
Fixpoint span {A} (f : A -> bool) (l : list A) : list A * list A :=
  match l with
  | nil => (nil, nil)
  | c :: r => if f c then let (a, b) := span f r in (c :: a, b) else (nil, l)
  end.

Definition quote : char := 39%N.     (* single quote *)
Definition dquote : char := 34%N.    (* double quote *)

(** a quoted string: [q[^q]*q], with its quotes, and the rest *)
Definition match_quoted (q : char) (x : str) : option (str * str) :=
  match x with
  | c :: r =>
      if N.eqb c q then
        match span (fun c => negb (N.eqb c q)) r with
        | (body, q' :: rest) => Some (q :: body ++ [q'], rest)
        | (_, nil) => None
        end
      else None
  | nil => None
  end.

(** a bare word: one or more characters satisfying [f] *)
Definition match_plus (f : char -> bool) (x : str) : option (str * str) :=
  match span f x with
  | (nil, _) => None
  | (w, rest) => Some (w, rest)
  end.

(** first alternative that matches *)
Definition orelse {A} (a b : option A) : option A := match a with Some _ => a | None => b end.

(** attributes.py:105-107: the value group *)
Definition match_value (x : str) : option (str * str) :=
  orelse (match_quoted dquote x)
    (orelse (match_quoted quote x)
       (match_plus (fun c => negb (rx_space c || N.eqb c 93)) x)).

Section Load.
Variables (uw : char -> bool)           (* Unicode word characters >= 128 *)
          (pv : str -> ptype).          (* utils/types.py:55-94: int()/float() syntax *)

(** [\w.] in attributes.py:103 *)
Definition key_char (c : char) : bool := is_word uw c || N.eqb c 46.

(** attributes.py:103-107: key, equal sign and value.  Giving back characters
    of the greedy key or of the white space cannot make the match succeed, so
    no backtracking is modelled. *)
Definition match_keyval (x : str) : option (str * str * str) :=
  match match_plus key_char x with
  | None => None
  | Some (key, r1) =>
      match snd (span rx_space r1) with
      | c :: r2 =>
          if N.eqb c 61 then
            match match_value (snd (span rx_space r2)) with
            | Some (v, rest) => Some (key, v, rest)
            | None => None
            end
          else None
      | nil => None
      end
  end.

(** attributes.py:108-110: the position group; None is the empty match *)
Definition match_position (x : str) : option (str * str) :=
  orelse (match_quoted dquote x)
    (orelse (match_quoted quote x)
       (match_plus (fun c => negb (rx_space c || N.eqb c 44 || N.eqb c 91 || N.eqb c 93)) x)).

(** attributes.py:172-192: the loop over [re_attrs.finditer(s)].  An empty
    match advances by one character.  Fuel: the length of the string. *)
Fixpoint load_pairs (fuel : nat) (x : str) : list (str * aval) :=
  match fuel with
  | O => nil
  | S f =>
      match x with
      | nil => nil
      | _ :: tail =>
          match match_keyval x with
          | Some (key, v, rest) =>
              (key, VStr (strip_c quote (strip_c dquote v))) :: load_pairs f rest
          | None =>
              match match_position x with
              | Some (p, rest) =>
                  let value := strip_c dquote (strip_c quote p) in
                  (value, VPos (pv (strip_attr value))) :: load_pairs f rest
              | None => load_pairs f tail
              end
          end
      end
  end.

(** attributes.py:151-194 [load] *)
Definition load (d : attrs) (x : str) : attrs := update d (load_pairs (length x) x).
End Load.

(** ** Lookup *)

(** [target.strip('.')] *)
Definition norm_target (t : option str) : option str :=
  match t with Some x => Some (strip_c 46%N x) | None => None end.

(** [str(attr)] for a requested attribute *)
Definition areq_str (a : areq) : str := match a with RKey k => k | RPos p => ptype_str p end.

(** attributes.py:196-273 [find_item]; None stands for the default *)
Definition find_item (d : attrs) (attr : areq) (target : option str) : option (str * aval) :=
  let target := norm_target target in
  let by_target :=
    match target with
    | Some t => let tk := join sep [areq_str attr; t] in
                match lookup tk d with Some v => Some (tk, v) | None => None end
    | None => None
    end in
  match by_target with
  | Some kv => Some kv
  | None =>
      match attr with
      | RKey k => match lookup k d with Some v => Some (k, v) | None => None end
      | RPos p =>
          let items := filter (fun kv => match snd kv with
                                         | VPos q => subclass q p
                                         | _ => false
                                         end) d in
          let target_items :=
            match target with
            | Some ((_ :: _) as t) => filter (fun kv => endswith (fst kv) t) items
            | _ => filter (fun kv => negb (is_target_specific (fst kv))) items
            end in
          match target_items, items with
          | kv :: _, _ => Some kv
          | nil, kv :: _ => Some kv
          | nil, nil => None
          end
      end
  end.

(** [strip_attr(rv) if isinstance(rv, str) else rv] *)
Definition strip_val (v : aval) : aval :=
  match v with VStr x => VStr (strip_attr x) | _ => v end.

(** attributes.py:275-329 [get]; the default is assumed not to be a pair *)
Definition get (d : attrs) (attr : areq) (target : option str) (default : aval) : aval :=
  match find_item d attr target with
  | Some (key, value) =>
      strip_val (match attr with RPos _ => VStr key | RKey _ => value end)
  | None => default
  end.

(** attributes.py:331-358 [append]; [None] is the missing value.  List values
    are not modelled (they are [VObj], printed and joined like other objects). *)
Definition append (d : attrs) (attr : str) (value : option aval) : attrs :=
  match value with
  | None => set attr (VPos PAny) d
  | Some v =>
      match lookup attr d with
      | None => set attr v d
      | Some cur => set attr (VStr (join (lit " ") [aval_str cur; aval_str v])) d
      end
  end.

(** attributes.py:136-137 [copy]: the constructor called with the entries as keyword arguments, a TypeError if a key
    is 'self' (the name of the receiver) *)
Definition copy (d : attrs) : result attrs :=
  if has (lit "self") d then Raise TypeError else Ok d.

(** attributes.py:360-387 [strip] *)
Definition strip_attrs (d : attrs) : result attrs :=
  do cp <- copy d;
  let ks := keys cp in
  let stripped_keys := map strip_attr (filter is_target_specific ks) in
  let ks := filter (fun k => negb (mem k stripped_keys)) ks in
  Ok (fold_left (fun acc key =>
        match lookup key cp with
        | Some v => set (strip_attr key) v acc
        | None => acc
        end) ks nil).

(** position of [k] in [l] ([order] in attributes.py:457); [length l] if missing *)
Fixpoint index_of {A} `{EqDec A} (k : A) (l : list A) : nat :=
  match l with nil => 0 | x :: r => if eqb k x then 0 else S (index_of k r) end.

(** [strip_attr] of a requested attribute; classes are unchanged *)
Definition areq_strip (a : areq) : areq :=
  match a with RKey k => RKey (strip_attr k) | RPos p => RPos p end.
(** [attr.endswith(x)] (only reached for strings) *)
Definition areq_endswith (a : areq) (x : str) : bool :=
  match a with RKey k => endswith k x | RPos _ => false end.

(** attributes.py:461-484: the attributes to remove *)
Definition filter_removed (reqs : list areq) (target : option str) : list areq :=
  match target with
  | Some t =>
      flat_map (fun a =>
        let st := areq_strip a in
        if eqb a st then nil
        else if areq_endswith a (sep ++ t) then [st] else [a]) reqs
  | None => filter (fun a => negb (eqb a (areq_strip a))) reqs
  end.

(** attributes.py:389-498 [filter].  [reqs = None] asks for all keys; a string
    is the one-element list. *)
Definition filter_attrs (d : attrs) (reqs : option (list areq)) (target : option str)
           (sort_by_attrs strip : bool) : result attrs :=
  let target := norm_target target in
  let reqs := match reqs with Some l => l | None => map RKey (keys d) end in
  let reqs := uniq reqs in
  let reqs := if sort_by_attrs then reqs
              else sort_by (fun a => index_of a (map RKey (keys d))) reqs in
  let removed := filter_removed reqs target in
  let reqs := filter (fun a => negb (mem a removed)) reqs in
  let out := fold_left (fun acc a =>
               match find_item d a target with
               | Some (k, v) => set k v acc
               | None => acc
               end) reqs nil in
  if strip then strip_attrs out else Ok out.

(** ** Printing *)

(** attributes.py:516-518 *)
Definition html_entry (kv : str * aval) : str :=
  match snd kv with
  | VPos _ => fst kv
  | v => fst kv ++ lit "='" ++ aval_str v ++ lit "'"
  end.
(** attributes.py:501-519 [html] *)
Definition html (d : attrs) : str := join (lit " ") (map html_entry d).

(** attributes.py:541-544 *)
Definition tex_arg (kv : str * aval) : str :=
  match snd kv with
  | VPos _ => lit "{" ++ fst kv ++ lit "}"
  | v => lit "{" ++ aval_str v ++ lit "}"
  end.
(** attributes.py:521-545 [tex_arguments] *)
Definition tex_arguments (d : attrs) : str := concat (map tex_arg d).

(** attributes.py:567-570 *)
Definition tex_opt (kv : str * aval) : str :=
  match snd kv with
  | VPos _ => fst kv
  | v => fst kv ++ lit "=" ++ aval_str v
  end.
(** attributes.py:547-573 [tex_optionals] *)
Definition tex_optionals (d : attrs) : str :=
  match d with
  | nil => nil
  | _ => lit "[" ++ join (lit ", ") (map tex_opt d) ++ lit "]"
  end.

(** attributes.py:139-149 [totuple]: positional entries give their key *)
Definition totuple (d : attrs) : list (str + str * aval) :=
  map (fun kv => match snd kv with VPos _ => inl (fst kv) | _ => inr kv end) d.

(** Model of /repo/src/disseminate/context/context.py

    Contexts are mutable dictionaries whose values may be mutable themselves and
    may be shared, so the model has an explicit heap. *)
From Coq Require Import List Bool Arith NArith ZArith.
From Verif.Base Require Import Str Dict Result.
From Verif.Model Require Import StringUtils StrToDict.
Import ListNotations.

(** Immutable values.  [SOpq ty n] stands for the values of all other types
    that have no copy method (None, weak references, paths, managers). *)
Inductive scalar :=
| SStr (s : str) | SInt (z : Z) | SBool (b : bool) | SFloat (f : N) | SOpq (ty n : nat).

Notation addr := nat (only parsing).
Inductive val := VS (s : scalar) | VRef (a : addr).

(** Mutable objects.  The content of a tag is its text; what is in a tag made of
    other tags is not modelled (tags are copied deeply, see Model/TagTree.v). *)
Inductive cell :=
| CList (l : list val)
| CSet (l : list val)
| CDict (d : dict str val)
| CTag (cls : nat) (ctx : addr) (content : str).

(** The objects made so far; an address is a position in this list. *)
Notation heap := (list cell) (only parsing).

Definition alloc (h : heap) (c : cell) : addr * heap := (length h, h ++ [c]).
Fixpoint upd (h : heap) (a : addr) (c : cell) : heap :=
  match h, a with
  | nil, _ => nil
  | _ :: r, O => c :: r
  | x :: r, S a' => x :: upd r a' c
  end.

(** The value of an object that is used as a dictionary *)
Definition get_dict (h : heap) (a : addr) : result (dict str val) :=
  match nth_error h a with Some (CDict d) => Ok d | _ => Raise AttributeError end.

(** [d[k] = v] *)
Definition set_entry (h : heap) (a : addr) (k : str) (v : val) : result heap :=
  do d <- get_dict h a ; Ok (upd h a (CDict (set k v d))).

(** context.py:398-412: the copy of a new value.  Tags get the new context;
    lists, sets and dictionaries are copied, but not what is in them. *)
Definition copy_val (h : heap) (self : addr) (v : val) : val * heap :=
  match v with
  | VRef a =>
      match nth_error h a with
      | Some (CTag cls _ content) => let '(b, h') := alloc h (CTag cls self content) in (VRef b, h')
      | Some c => let '(b, h') := alloc h c in (VRef b, h')
      | None => (v, h)
      end
  | VS _ => (v, h)
  end.

(** context.py:423-431: [original_value.clear()]; values without this method
    are only logged *)
Definition clear (h : heap) (v : val) : heap :=
  match v with
  | VRef a =>
      match nth_error h a with
      | Some (CList _) => upd h a (CList nil)
      | Some (CSet _) => upd h a (CSet nil)
      | Some (CDict _) => upd h a (CDict nil)
      | _ => h
      end
  | VS _ => h
  end.

(** context.py:435-437 and 442-444: the items of the change.  The items of a
    tag are not modelled (a TagError, as when its content is a text). *)
Definition to_list (h : heap) (v : val) : result (list val) :=
  match v with
  | VS (SStr s) => Ok (map (fun x => VS (SStr x)) (str_to_list s))
  | VS _ => Raise TypeError
  | VRef a =>
      match nth_error h a with
      | Some (CList l) | Some (CSet l) => Ok l
      | Some (CDict d) => Ok (map (fun kv => VS (SStr (fst kv))) d)
      | Some (CTag _ _ _) => Raise TagError
      | None => Raise TypeError
      end
  end.

(** Lists, sets, dictionaries and tags (they define __eq__ only) have no hash *)
Definition hashable (v : val) : bool := match v with VS _ => true | VRef _ => false end.
Definition eqb_scalar (x y : scalar) : bool :=
  match x, y with
  | SStr s, SStr t => eqb s t
  | SInt s, SInt t => Z.eqb s t
  | SBool s, SBool t => Bool.eqb s t
  | SFloat s, SFloat t => N.eqb s t
  | SOpq a b, SOpq c d => Nat.eqb a c && Nat.eqb b d
  | _, _ => false
  end.
Definition eqb_val (x y : val) : bool :=
  match x, y with
  | VS s, VS t => eqb_scalar s t
  | VRef a, VRef b => Nat.eqb a b
  | _, _ => false
  end.
(** [original_value |= set(change_value)].  Equal numbers of different types
    are kept apart here. *)
Fixpoint add_items (s items : list val) : list val :=
  match items with
  | nil => s
  | x :: r => add_items (if existsb (eqb_val x) s then s else s ++ [x]) r
  end.

(** context.py:449-451: the dictionary of the change.  dict() of a list or a set
    that is not empty is a ValueError or TypeError (lists of pairs are not
    modelled). *)
Definition to_dict (h : heap) (v : val) : result (dict str val) :=
  match v with
  | VS (SStr s) => Ok (map (fun kv => (fst kv, VS (SStr (snd kv)))) (str_to_dict true s))
  | VS _ => Raise TypeError
  | VRef a =>
      match nth_error h a with
      | Some (CDict d) => Ok d
      | Some (CList nil) | Some (CSet nil) => Ok nil
      | _ => Raise ValueError
      end
  end.

(** context.py:495: [type(original_value) == type(change_value)] *)
Definition same_type (x y : scalar) : bool :=
  match x, y with
  | SStr _, SStr _ => true
  | SInt _, SInt _ => true
  | SBool _, SBool _ => true
  | SFloat _, SFloat _ => true
  | SOpq a _, SOpq b _ => Nat.eqb a b
  | _, _ => false
  end.

Section Context.
(** [int(x)], [float(x)] and [s.lower()] of Python *)
Variables (to_int : scalar -> result Z) (to_float : scalar -> result N) (lower : str -> str).

(** context.py:474-496: the new value of an immutable entry *)
Definition convert (o : scalar) (v : val) : result val :=
  match o with
  | SBool _ =>
      match v with
      | VS (SStr s) =>
          let s := strip (lower s) in
          Ok (VS (if eqb s (lit "false") then SBool false else if eqb s (lit "true") then SBool true else o))
      | _ => Raise AttributeError
      end
  | SInt _ =>
      match v with
      | VS x => match to_int x with Ok z => Ok (VS (SInt z)) | Raise ValueError => Ok (VS o) | Raise e => Raise e end
      | VRef _ => Raise TypeError
      end
  | SFloat _ =>
      match v with
      | VS x => match to_float x with Ok z => Ok (VS (SFloat z)) | Raise ValueError => Ok (VS o) | Raise e => Raise e end
      | VRef _ => Raise TypeError
      end
  | _ => match v with
         | VS x => Ok (if same_type o x then v else VS o)
         | VRef _ => Ok (VS o)
         end
  end.

(** context.py:388-496: the loop over the keys; [rec] is the call for
    dictionaries in the dictionary.  A plain dictionary has no attribute
    'replace'. *)
Definition update_key (rec : heap -> addr -> addr -> result heap)
    (replace : list str) (overwrite : bool) (self ch : addr) (h : heap) (k : str) : result heap :=
  do c <- get_dict h ch ;
  match lookup k c with
  | None => Ok h
  | Some v =>
      do d <- get_dict h self ;
      match lookup k d with
      | None => let '(v', h') := copy_val h self v in set_entry h' self k v'
      | Some o =>
          if negb overwrite then Ok h else
          let h1 := if mem k replace then clear h o else h in
          match o with
          | VRef a =>
              match nth_error h1 a with
              | Some (CList l) => do items <- to_list h1 v ; Ok (upd h1 a (CList (items ++ l)))
              | Some (CSet l) =>
                  do items <- to_list h1 v ;
                  if forallb hashable items then Ok (upd h1 a (CSet (add_items l items))) else Raise TypeError
              | Some (CDict _) =>
                  do c' <- to_dict h1 v ;
                  let '(b, h2) := alloc h1 (CDict c') in rec h2 a b
              | Some (CTag cls _ _) =>
                  match v with
                  | VS (SStr s) =>
                      let '(b, h2) := alloc h1 (CTag cls self s) in set_entry h2 self k (VRef b)
                  | VRef b =>
                      match nth_error h1 b with
                      | Some (CTag cls' _ s) =>
                          let '(b', h2) := alloc h1 (CTag cls' self s) in set_entry h2 self k (VRef b')
                      | _ => Ok h1
                      end
                  | _ => Ok h1
                  end
              | None => Raise AttributeError
              end
          | VS s => do v' <- convert s v ; set_entry h1 self k v'
          end
      end
  end.
Fixpoint update_keys (rec : heap -> addr -> addr -> result heap)
    (replace : list str) (overwrite : bool) (self ch : addr) (ks : list str) (h : heap) : result heap :=
  match ks with
  | nil => Ok h
  | k :: ks' => do h' <- update_key rec replace overwrite self ch h k ; update_keys rec replace overwrite self ch ks' h'
  end.

(** context.py:322-496 [match_update] with a dictionary of changes; [n] is
    context_max_depth - level (settings.py:77), so it is 5 for level 1. *)
Fixpoint match_update (n : nat) (replace : list str) (overwrite : bool)
    (self ch : addr) (ks : option (list str)) (h : heap) : result heap :=
  match n with
  | O => Raise OtherError
  | S n' =>
      do c <- get_dict h ch ;
      update_keys (fun h a b => match_update n' nil true a b None h) replace overwrite self ch
        (match ks with Some ks => ks | None => keys c end) h
  end.

(** context.py:374-377: changes given as a text *)
Definition match_update_str (replace : list str) (overwrite : bool) (self : addr) (s : str) (h : heap) : result heap :=
  let '(b, h') := alloc h (CDict (map (fun kv => (fst kv, VS (SStr (snd kv)))) (str_to_dict true s))) in
  match_update 5 replace overwrite self b None h'.

(** A context: its class (context.py:96-98), its dictionary, the parent context
    and the initial values *)
Record cls := { do_not_inherit : list str; exclude_from_reset : list str; replace : list str }.
Record context := { self : addr; parent : option addr; initial : addr }.

(** The order in which Python goes through a set of keys *)
Variable order : list str -> list str.

(** context.py:221-269 [reset] *)
Definition reset (C : cls) (x : context) (h : heap) : result heap :=
  do d <- get_dict h (self x) ;
  let h := upd h (self x) (CDict (filter (fun kv => mem (fst kv) (exclude_from_reset C)) d)) in
  do h <- match parent x with
          | None => Ok h
          | Some p =>
              do dp <- get_dict h p ;
              match_update 5 (replace C) true (self x) p
                (Some (order (filter (fun k => negb (mem k (do_not_inherit C))) (keys dp)))) h
          end ;
  match_update 5 (replace C) true (self x) (initial x) None h.

(** context.py:101-122 [__init__] with the entries [kv] (without the protected
    keys) and what the class put into the dictionary before ([d0]) *)
Definition new_context (C : cls) (d0 : dict str val) (p : option addr) (kv : dict str val) (h : heap) : result (context * heap) :=
  let '(s, h) := alloc h (CDict d0) in
  let '(i, h) := alloc h (CDict kv) in
  let x := {| self := s; parent := p; initial := i |} in
  do h <- reset C x h ; Ok (x, h).

(** context.py:179-219 [load] *)
Definition load (C : cls) (x : context) (s : str) (strip_header overwrite : bool) (h : heap) : result (str * heap) :=
  let '(rest, d) := load_from_string s in
  let '(b, h) := alloc h (CDict (map (fun kv => (fst kv, VS (SStr (snd kv)))) d)) in
  do h <- match_update 5 (replace C) overwrite (self x) b None h ;
  Ok (match rest with Some r => if strip_header then r else s | None => s end, h).

(** context.py:498-518 [filter]: the entries of the new context *)
Definition filter_context (C : cls) (x : context) (ks : list str) (h : heap) : result (addr * heap) :=
  let '(s, h) := alloc h (CDict nil) in
  do h <- match_update 5 (replace C) true s (self x) (Some ks) h ; Ok (s, h).

(** context.py:271-320 [is_valid]; [ok] is the test for the type of the entry *)
Fixpoint is_valid (ok : str -> val -> bool) (must_exist : bool) (d : dict str val) (ks : list str) : bool :=
  match ks with
  | nil => true
  | k :: r =>
      match lookup k d with
      | None => if must_exist then false else is_valid ok must_exist d r
      | Some v => if ok k v then is_valid ok must_exist d r else false
      end
  end.
End Context.

(** document_context.py:46-114, the sets of DocumentContext (with body_attr,
    settings.py:74) *)
Definition DocumentContext : cls :=
  {| do_not_inherit := [lit "document"; lit "include"; lit "includes"; lit "short"; lit "doc_id"; lit "mtime"; lit "paths"; lit "builders"; lit "body"];
     exclude_from_reset := [lit "document"; lit "label_manager"; lit "environment"; lit "paths"];
     replace := [lit "targets"; lit "inactive_tags"] |}.
Definition BaseContext : cls := {| do_not_inherit := nil; exclude_from_reset := nil; replace := nil |}.

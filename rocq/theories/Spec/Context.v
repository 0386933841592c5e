(** Specification for contexts (C25, C26, C27): the nested values a context
    holds, and what an update makes of them. *)
From Coq Require Import List Bool NArith ZArith.
From Verif.Base Require Import Str Dict Result.
From Verif.Model Require Import StringUtils StrToDict Context.
Import ListNotations.

(** Values, read through all references *)
Inductive tree :=
| TS (s : scalar)
| TList (l : list tree)
| TSet (l : list scalar)
| TDict (d : dict str tree)
| TTag (cls : nat) (content : str).

(** [holds h v t P]: in [h] the value [v] reads as [t], the objects it consists
    of are those in [P], and the entries of a dictionary have no object in common. *)
Inductive holds (h : list cell) : val -> tree -> (nat -> Prop) -> Prop :=
| holds_scalar s : holds h (VS s) (TS s) (fun _ => False)
| holds_list a l ts P : nth_error h a = Some (CList l) -> holds_all h l ts P -> ~ P a ->
    holds h (VRef a) (TList ts) (fun x => x = a \/ P x)
| holds_set a l : nth_error h a = Some (CSet (map VS l)) -> holds h (VRef a) (TSet l) (fun x => x = a)
| holds_dict a d td (Ps : str -> nat -> Prop) :
    nth_error h a = Some (CDict d) -> wf d -> keys d = keys td ->
    (forall k, holds_entry h (lookup k d) (lookup k td) (Ps k)) ->
    (forall k, ~ Ps k a) -> (forall k1 k2 x, Ps k1 x -> Ps k2 x -> k1 = k2) ->
    holds h (VRef a) (TDict td) (fun x => x = a \/ exists k, Ps k x)
| holds_tag a cls ctx s : nth_error h a = Some (CTag cls ctx s) -> holds h (VRef a) (TTag cls s) (fun x => x = a)
with holds_all (h : list cell) : list val -> list tree -> (nat -> Prop) -> Prop :=
| all_nil : holds_all h nil nil (fun _ => False)
| all_cons v t P l ts Q : holds h v t P -> holds_all h l ts Q -> holds_all h (v :: l) (t :: ts) (fun x => P x \/ Q x)
with holds_entry (h : list cell) : option val -> option tree -> (nat -> Prop) -> Prop :=
| entry_none : holds_entry h None None (fun _ => False)
| entry_some v t P : holds h v t P -> holds_entry h (Some v) (Some t) P.

(** What a change is as a list, and as a dictionary *)
Definition items_of (v : tree) : option (list tree) :=
  match v with
  | TS (SStr s) => Some (map (fun x => TS (SStr x)) (str_to_list s))
  | TList l => Some l
  | TSet l => Some (map TS l)
  | TDict d => Some (map (fun k => TS (SStr k)) (keys d))
  | _ => None
  end.
Definition entries_of (v : tree) : option (dict str tree) :=
  match v with
  | TS (SStr s) => Some (map (fun kv => (fst kv, TS (SStr (snd kv)))) (str_to_dict true s))
  | TDict d => Some d
  | TList nil | TSet nil => Some nil
  | _ => None
  end.

(** [l] with the items of [m] that are new *)
Fixpoint union (l m : list scalar) : list scalar :=
  match m with
  | nil => l
  | x :: m' => union (if existsb (eqb_scalar x) l then l else l ++ [x]) m'
  end.

(** The value of an entry that is replaced, before the change is added *)
Definition cleared (o : tree) : tree :=
  match o with
  | TList _ => TList nil
  | TSet _ => TSet nil
  | TDict _ => TDict nil
  | _ => o
  end.

Section Updated.
Variables (to_int : scalar -> result Z) (to_float : scalar -> result N) (lower : str -> str).

(** An immutable entry [o] changed by [v] becomes [r]: the same type always *)
Inductive Converted : scalar -> tree -> scalar -> Prop :=
| conv_true b s : strip (lower s) = lit "true" -> Converted (SBool b) (TS (SStr s)) (SBool true)
| conv_false b s : strip (lower s) = lit "false" -> Converted (SBool b) (TS (SStr s)) (SBool false)
| conv_neither b s : strip (lower s) <> lit "true" -> strip (lower s) <> lit "false" ->
    Converted (SBool b) (TS (SStr s)) (SBool b)
| conv_int i x z : to_int x = Ok z -> Converted (SInt i) (TS x) (SInt z)
| conv_no_int i x : to_int x = Raise ValueError -> Converted (SInt i) (TS x) (SInt i)
| conv_float f x g : to_float x = Ok g -> Converted (SFloat f) (TS x) (SFloat g)
| conv_no_float f x : to_float x = Raise ValueError -> Converted (SFloat f) (TS x) (SFloat f)
| conv_text s s' : Converted (SStr s) (TS (SStr s')) (SStr s')
| conv_text_other s v : (forall s', v <> TS (SStr s')) -> Converted (SStr s) v (SStr s)
| conv_opaque ty n n' : Converted (SOpq ty n) (TS (SOpq ty n')) (SOpq ty n')
| conv_opaque_other ty n v : (forall n', v <> TS (SOpq ty n')) -> Converted (SOpq ty n) v (SOpq ty n).

(** An entry [o] changed by [v] becomes [r] *)
Inductive Updated : tree -> tree -> tree -> Prop :=
| upd_list l v items : items_of v = Some items -> Updated (TList l) v (TList (items ++ l))
| upd_set l v items : items_of v = Some (map TS items) -> Updated (TSet l) v (TSet (union l items))
| upd_dict d v c r : entries_of v = Some c ->
    (forall k, Entry false true (lookup k d) (lookup k c) (lookup k r)) -> Updated (TDict d) v (TDict r)
| upd_tag_text cls s s' : Updated (TTag cls s) (TS (SStr s')) (TTag cls s')
| upd_tag_tag cls s cls' s' : Updated (TTag cls s) (TTag cls' s') (TTag cls' s')
| upd_tag_other cls s v : (forall s', v <> TS (SStr s')) -> (forall cls' s', v <> TTag cls' s') ->
    Updated (TTag cls s) v (TTag cls s)
| upd_scalar o v r : Converted o v r -> Updated (TS o) v (TS r)
(** The entry of a key: kept without a change, copied when it is new.  The first
    flag is for entries that are replaced, the second to overwrite entries. *)
with Entry : bool -> bool -> option tree -> option tree -> option tree -> Prop :=
| entry_kept rp w o : Entry rp w o None o
| entry_new rp w v : Entry rp w None (Some v) (Some v)
| entry_updated (rp : bool) o v r : Updated (if rp then cleared o else o) v r -> Entry rp true (Some o) (Some v) (Some r)
| entry_not_overwritten rp o v : Entry rp false (Some o) (Some v) (Some o).
End Updated.

(** The types of values *)
Inductive kind := KStr | KInt | KBool | KFloat | KOpq (ty : nat) | KList | KSet | KDict | KTag.
Definition kind_of (t : tree) : kind :=
  match t with
  | TS (SStr _) => KStr | TS (SInt _) => KInt | TS (SBool _) => KBool | TS (SFloat _) => KFloat
  | TS (SOpq ty _) => KOpq ty
  | TList _ => KList | TSet _ => KSet | TDict _ => KDict | TTag _ _ => KTag
  end.

(** The same value; the order of the entries of dictionaries does not matter *)
Inductive same : tree -> tree -> Prop :=
| same_refl t : same t t
| same_dict d e : (forall k, same_opt (lookup k d) (lookup k e)) -> same (TDict d) (TDict e)
with same_opt : option tree -> option tree -> Prop :=
| same_none : same_opt None None
| same_some t u : same t u -> same_opt (Some t) (Some u).

(** Values without mutable values inside of them *)
Definition is_scalar (t : tree) : Prop := exists s, t = TS s.
Definition flat (t : tree) : Prop :=
  match t with
  | TList l => Forall is_scalar l
  | TDict d => forall k u, lookup k d = Some u -> is_scalar u
  | _ => True
  end.
Definition flat_dict (d : dict str tree) : Prop := forall k t, lookup k d = Some t -> flat t.

(** What an entry must be after a reset, given the entries of the context before,
    of the parent and of the initial values: the protected entry (if it is), then
    updated with the inherited entry, then with the initial value *)
Definition after_reset to_int to_float lower (C : cls) (d dp di : dict str tree) (k : str) (r : option tree) : Prop :=
  exists m,
    Entry to_int to_float lower (mem k (replace C)) true
      (if mem k (exclude_from_reset C) then lookup k d else None)
      (if mem k (do_not_inherit C) then None else lookup k dp) m /\
    Entry to_int to_float lower (mem k (replace C)) true m (lookup k di) r.

(** The parent context of [x] (if any) reads as [dp] *)
Definition holds_parent (h : list cell) (p : option nat) (dp : dict str tree) (G : nat -> Prop) : Prop :=
  match p with
  | Some a => holds h (VRef a) (TDict dp) G
  | None => dp = nil /\ (forall x, ~ G x)
  end.
Definition apart (F G : nat -> Prop) : Prop := forall x, F x -> G x -> False.

(** Histories: what can be done with a context [x] *)
Inductive op :=
| Assign (k : str) (s : scalar)              (* x[k] = s *)
| AssignList (k : str) (l : list scalar)     (* x[k] = [..] *)
| Delete (k : str)                           (* del x[k] *)
| Append (k : str) (s : scalar)              (* x[k].append(s) *)
| Add (k : str) (s : scalar)                 (* x[k].add(s) *)
| PutIn (k k' : str) (s : scalar)            (* x[k][k'] = s *)
| UpdateText (s : str) (overwrite : bool)    (* x.match_update(s, overwrite) *)
| Load (s : str) (overwrite : bool)          (* x.load(s, overwrite) *)
| Reset.                                     (* x.reset() *)

Definition entry_cell (h : list cell) (x : context) (k : str) : option (nat * cell) :=
  match nth_error h (self x) with
  | Some (CDict d) =>
      match lookup k d with
      | Some (VRef a) => match nth_error h a with Some c => Some (a, c) | None => None end
      | _ => None
      end
  | _ => None
  end.

Section Histories.
Variables (to_int : scalar -> result Z) (to_float : scalar -> result N) (lower : str -> str)
          (order : list str -> list str) (C : cls).
Definition do_op (x : context) (o : op) (h : list cell) : result (list cell) :=
  match o with
  | Assign k s => set_entry h (self x) k (VS s)
  | AssignList k l => set_entry (h ++ [CList (map VS l)]) (self x) k (VRef (length h))
  | Delete k => do d <- get_dict h (self x) ; Ok (upd h (self x) (CDict (remove k d)))
  | Append k s =>
      match entry_cell h x k with Some (a, CList l) => Ok (upd h a (CList (l ++ [VS s]))) | _ => Raise AttributeError end
  | Add k s =>
      match entry_cell h x k with Some (a, CSet l) => Ok (upd h a (CSet (add_items l [VS s]))) | _ => Raise AttributeError end
  | PutIn k k' s =>
      match entry_cell h x k with Some (a, CDict d) => Ok (upd h a (CDict (set k' (VS s) d))) | _ => Raise TypeError end
  | UpdateText s w => match_update_str to_int to_float lower (replace C) w (self x) s h
  | Load s w => do r <- load to_int to_float lower C x s true w h ; Ok (snd r)
  | Reset => reset to_int to_float lower order C x h
  end.
Fixpoint run (x : context) (l : list op) (h : list cell) : result (list cell) :=
  match l with
  | nil => Ok h
  | o :: r => do h' <- do_op x o h ; run x r h'
  end.
End Histories.

(** Every entry of a dictionary exists, and a tag among the entries of the
    dictionary [s] has [s] as its context *)
Definition entries_exist (h : list cell) : Prop :=
  forall a d k b, nth_error h a = Some (CDict d) -> lookup k d = Some (VRef b) -> b < length h.
Definition own_tags (h : list cell) (s : nat) : Prop :=
  forall d k b cls ctx content, nth_error h s = Some (CDict d) -> lookup k d = Some (VRef b) ->
  nth_error h b = Some (CTag cls ctx content) -> ctx = s.

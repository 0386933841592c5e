(** What attribute lookups, filters and printers should do, stated without the
    helpers of the model (only the data types [attrs], [aval] and the
    dictionary lookup are shared). *)
From Coq Require Import List Bool NArith.
From Verif.Base Require Import Str Dict.
From Verif.Model Require Import Attributes.
Import ListNotations.

(** The rendering targets that may terminate an attribute name. *)
Definition known_target (t : str) : Prop :=
  t = lit "html" \/ t = lit "xhtml" \/ t = lit "tex" \/ t = lit "css".

(** The name of the entry for target [t]: [class.html] for [class]. *)
Definition for_target (k t : str) : str := k ++ 46%N :: t.

(** A name that is not specific to a target. *)
Definition plain (k : str) : Prop :=
  forall p t, known_target t -> k <> for_target p t.

(** A target as users write it: with or without dots around it. *)
Definition dots (n : nat) : str := repeat 46%N n.
Definition bare_target (t : str) : Prop := ~ In 46%N t.

(** A value that does not look like a target-specific name. *)
Definition clean_value (v : aval) : Prop :=
  match v with VStr x => plain x | _ => True end.

(** The value for [k] and an optional target: the target-specific entry if
    there is one, else the general one. *)
Definition pick (d : attrs) (t : option str) (k : str) : option aval :=
  match t with
  | Some t => match lookup (for_target k t) d with Some v => Some v | None => lookup k d end
  | None => lookup k d
  end.

(** The entries for a list of names, in the order of the list. *)
Definition expected (d : attrs) (t : option str) (ks : list str) : attrs :=
  flat_map (fun k => match pick d t k with Some v => [(k, v)] | None => [] end) ks.

(** The default order of a request: the requested names that are general
    entries come first, in the order of the tag's attributes; the others
    follow in the order of the request. *)
Definition default_order (d : attrs) (ks : list str) : list str :=
  filter (fun k => mem k ks) (map fst d) ++ filter (fun k => negb (mem k (map fst d))) ks.

(** The entry [k0] of a dictionary may be returned for a request. *)
Definition requested (d : attrs) (t : option str) (a : areq) (k0 : str) : Prop :=
  match a with
  | RKey k => k0 = k \/ exists u, t = Some u /\ k0 = for_target k u
  | RPos p =>
      (exists q, lookup k0 d = Some (VPos q) /\ (p = PAny \/ p = q)) \/
      exists u, t = Some u /\ k0 = for_target (ptype_str p) u
  end.

(** Entries that survive printing and loading. *)
Definition good_pos_char (c : char) : Prop :=
  is_space c = false /\ ~ In c [44; 91; 93; 61; 34; 39]%N.
Definition good_entry (uw : char -> bool) (pv : str -> ptype) (e : str * aval) : Prop :=
  match e with
  | (k, VStr v) =>                      (* a key made of word characters and dots,
                                           a value without single quotes *)
      k <> nil /\ (forall c, In c k -> is_word uw c = true \/ c = 46%N) /\ ~ In 39%N v
  | (k, VPos p) =>                      (* no white space, separators or quotes *)
      k <> nil /\ (forall c, In c k -> good_pos_char c) /\
      (forall b, (plain k /\ b = k) \/ (exists t, known_target t /\ k = for_target b t) -> p = pv b)
  | (_, VObj _) => False
  end.

(** The text a tex printer shows for an entry *)
Definition arg_text (e : str * aval) : str :=
  match e with
  | (k, VPos _) => k
  | (_, VStr v) => v
  | (_, VObj r) => r
  end.
Definition opt_text (e : str * aval) : str :=
  match e with
  | (k, VPos _) => k
  | (k, VStr v) => k ++ 61%N :: v
  | (k, VObj r) => k ++ 61%N :: r
  end.

(** [a] is obtained from [b] by leaving out elements. *)
Inductive subseq {A : Type} : list A -> list A -> Prop :=
| subseq_nil : subseq [] []
| subseq_keep x a b : subseq a b -> subseq (x :: a) (x :: b)
| subseq_drop x a b : subseq a b -> subseq a (x :: b).

(** The names [ps] are in the order in which their entries appear in [d]. *)
Definition in_attribute_order (d : attrs) (t : str) (ps : list str) : Prop :=
  exists ks, subseq ks (map fst d) /\ Forall2 (fun k p => k = p \/ k = for_target p t) ks ps.

(** A positional value of the kind [q] (PAny: of any kind), and the names that end with a target. *)
Definition of_kind (q : ptype) (v : aval) : Prop := exists p, v = VPos p /\ (q = PAny \/ p = q).
Definition ends_with (t k : str) : Prop := exists b, k = b ++ t.
(** Names as they can be written: they have no sign '<' *)
Definition written (d : attrs) : Prop := forall k v, In (k, v) d -> ~ In 60%N k.
(** [(k, v)] is the first entry of [d] with the property. *)
Definition first_entry (P : str -> aval -> Prop) (d : attrs) (k : str) (v : aval) : Prop :=
  exists before after, d = before ++ (k, v) :: after /\ P k v /\ forall k' v', In (k', v') before -> ~ P k' v'.

(** Texts with macros, as a user writes them. *)
From Coq Require Import List Bool Arith NArith.
From Verif.Base Require Import Str Dict.
Import ListNotations.

(** A text with references: literal text, and references '@name', optionally
    followed by empty curly brackets with white space [ws] in them.  A name may
    have dots, as in '@label.title' or at the end of a sentence. *)
Inductive token :=
| Text (t : str)
| Ref (name : str) (braces : option str).

Definition ref_text (name : str) (braces : option str) : str :=
  [64%N] ++ name ++ match braces with Some ws => [123%N] ++ ws ++ [125%N] | None => [] end.
Definition token_text (t : token) : str :=
  match t with Text x => x | Ref n b => ref_text n b end.
Definition text_of (ts : list token) : str := concat (map token_text ts).

(** The names that are referred to. *)
Definition names_of (ts : list token) : list str :=
  flat_map (fun t => match t with Text _ => [] | Ref n _ => [n] end) ts.

(** The text in which references with a value are replaced by it; the others
    stay. *)
Definition expand_token (value : str -> option str) (t : token) : token :=
  match t with
  | Ref n b => match value n with Some v => Text v | None => t end
  | _ => t
  end.
Definition expand (value : str -> option str) (ts : list token) : list token :=
  map (expand_token value) ts.

(** Replacing references by texts with references. *)
Definition unfold_refs (def : str -> list token) (ts : list token) : list token :=
  flat_map (fun t => match t with Text _ => [t] | Ref n _ => def n end) ts.

Section WF.
Variable uw : char -> bool.
(** characters of macro names *)
Definition name_char (c : char) : Prop := is_word uw c = true \/ c = 46%N.

(** What follows a reference may not continue its name, and may not look like
    the brackets of the reference. *)
Definition ends_name (after : str) : Prop :=
  match after with
  | c :: _ => ~ name_char c /\ c <> 123%N
  | [] => True
  end.

(** Well-formed texts: literal text has no '@'; names are not empty and consist
    of name characters; and a reference is followed by something that is not
    part of it. *)
Inductive wf_tokens : list token -> Prop :=
| wf_nil : wf_tokens []
| wf_text x ts : ~ In 64%N x -> wf_tokens ts -> wf_tokens (Text x :: ts)
| wf_ref n b ts : n <> [] -> Forall name_char n ->
    (forall ws, b = Some ws -> Forall (fun c => rx_space c = true) ws) ->
    (b = None -> ends_name (text_of ts)) ->
    wf_tokens ts -> wf_tokens (Ref n b :: ts).

(** A text that does not end in a bare reference, so that what comes after it
    cannot become part of the name. *)
Definition closed (ts : list token) : Prop :=
  forall a n r, ts = a ++ Ref n None :: r -> text_of r <> [].
End WF.

(** The value of a dotted name: attributes are followed as long as they exist,
    the rest of the name is kept as text. *)
Section Values.
Context {Obj : Type} (isnone : Obj -> bool) (attr : Obj -> str -> option Obj).
Inductive attr_path : Obj -> list str -> Obj -> list str -> Prop :=
| path_end o : attr_path o [] o []
| path_stop o p ps : attr o p = None -> attr_path o (p :: ps) o (p :: ps)
| path_step o p ps o1 o2 rest : attr o p = Some o1 -> isnone o1 = false ->
    attr_path o1 ps o2 rest -> attr_path o (p :: ps) o2 rest.

(** [d] is the first dictionary with the key [k], and [v] its value *)
Inductive first_with {K} `{EqDec K} (k : K) : list (dict K Obj) -> Obj -> Prop :=
| fw_here d ds v : lookup k d = Some v -> first_with k (d :: ds) v
| fw_later d ds v : lookup k d = None -> first_with k ds v -> first_with k (d :: ds) v.

(** The name [n] stands for the text [v]: '@' and its first part are a key of
    one of the dictionaries, the first of these gives an object other than None,
    and [v] is the text of what the other parts lead to. *)
Definition has_value (show : Obj -> str) (dicts : list (dict str Obj)) (n v : str) : Prop :=
  exists k ps o o2 rest,
    n = join [46%N] (k :: ps) /\ Forall (fun p => ~ In 46%N p) (k :: ps) /\
    first_with (64%N :: k) dicts o /\ isnone o = false /\
    attr_path o ps o2 rest /\ v = show o2 ++ concat (map (fun p => 46%N :: p) rest).

(** No dictionary has the first part of the name. *)
Definition unknown (dicts : list (dict str Obj)) (n : str) : Prop :=
  exists k ps, n = join [46%N] (k :: ps) /\ Forall (fun p => ~ In 46%N p) (k :: ps) /\
    Forall (fun d => lookup (64%N :: k) d = None) dicts.

(** The objects that a reference can lead to: values of the dictionaries and
    their attributes. *)
Inductive reachable (none : Obj) (dicts : list (dict str Obj)) : Obj -> Prop :=
| reach_value d k o : In d dicts -> lookup k d = Some o -> reachable none dicts o
| reach_none : reachable none dicts none
| reach_attr o p o1 : reachable none dicts o -> attr o p = Some o1 -> reachable none dicts o1.
End Values.

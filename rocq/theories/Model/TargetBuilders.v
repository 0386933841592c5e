(** Model of the target builders of a tree of documents:
    /repo/src/disseminate/builders/target_builders/ and builders/environment.py:223-242 *)
From Coq Require Import List Bool Arith NArith.
From Verif.Base Require Import Str Dict Result.
Import ListNotations.

(** A document: its identity and its targets (document_context.py:203-238, see Model/DocContext.v; a set,
    here a list in any order) *)
Record doc := { d_id : N; d_targets : list str }.

(** A target builder.  [uid] is its identity, [owner] the document of its context, [ext] the extension of
    its class, [cached] the argument use_cache for the path of its output (target_builder.py:99-113) and
    [parts] are the target builders among its sub-builders. *)
Record tb := mktb { uid : nat; ext : str; owner : N; cached : bool; parts : list nat }.

(** The entries 'builders' of the contexts and the number of builders made so far *)
Record st := mkst { reg : N -> dict str tb; next : nat }.
Definition builder (s : st) (d : doc) (e : str) : option tb := lookup e (reg s (d_id d)).
Definition put (d : doc) (e : str) (b : tb) (s : st) : st :=
  mkst (fun i => if N.eqb i (d_id d) then set e b (reg s i) else reg s i) (next s).
Definition fresh (s : st) : st := mkst (reg s) (S (next s)).

(** The classes of target builders (html_builder.py:13-17, xhtml_builder.py, tex_builder.py, txt_builder.py,
    pdf_builder.py:11-17 and epub_builder.py:14-21), found by the extension of the target
    (builder.py:485-550, see Model/FindBuilder.v; they need no programs) *)
Inductive kind := Single | Pdf | Epub.
Definition find_cls (e : str) : option kind :=
  if eqb e (lit ".pdf") then Some Pdf
  else if eqb e (lit ".epub") then Some Epub
  else if mem e [lit ".html"; lit ".xhtml"; lit ".tex"; lit ".txt"] then Some Single
  else None.
Definition only_root (k : kind) : bool := match k with Epub => true | _ => false end.

(** The targets are compared with the extension of the class, document_context.py:203-238 adds periods *)
Definition with_period (t : str) : str := if startswith t (lit ".") then t else lit "." ++ t.
Definition is_target (d : doc) (e : str) : bool := mem e (map with_period (d_targets d)).

(** target_builder.py:58-135 [TargetBuilder.__init__]: the builder is put in the context *)
Definition make (d : doc) (e : str) (ps : list nat) (s : st) : tb * st :=
  let b := mktb (next s) e (d_id d) (negb (is_target d e)) ps in (b, put d e b (fresh s)).
(** pdf_builder.py:27-35 and epub_builder.py:43-52: find a builder in the context or make one *)
Definition find_or_make (d : doc) (e : str) (s : st) : tb * st :=
  match builder s d e with Some b => (b, s) | None => make d e nil s end.

Section Update.
(** Whether there is a converter from tex to pdf (that is, an active class, builder.py:165-211) *)
Variable has_latex : bool.

(** pdf_builder.py:22-61 *)
Definition make_pdf (d : doc) (s : st) : result (tb * st) :=
  let '(t, s) := find_or_make d (lit ".tex") s in
  if has_latex then Ok (make d (lit ".pdf") [uid t] s) else Raise BuildError.
(** epub_builder.py:27-54 and 131-167 *)
Fixpoint find_or_make_all (l : list doc) (e : str) (s : st) : list nat * st :=
  match l with
  | nil => (nil, s)
  | d :: r => let '(b, s) := find_or_make d e s in
              let '(bs, s) := find_or_make_all r e s in (uid b :: bs, s)
  end.
Definition make_epub (d : doc) (docs : list doc) (s : st) : tb * st :=
  let '(b, s) := make d (lit ".epub") nil s in
  let '(bs, s) := find_or_make_all docs (lit ".xhtml") s in
  let b := mktb (uid b) (ext b) (owner b) (cached b) bs in (b, put d (lit ".epub") b s).

(** receivers.py:73-84, for one target of a document; [root] is the root document *)
Definition add_target (docs : list doc) (root d : doc) (t : str) (s : st) : result st :=
  let e := with_period t in
  match builder s d e with
  | Some _ => Ok s
  | None =>
      match find_cls e with
      | None => Raise BuildError
      | Some k =>
          if negb (only_root k) || N.eqb (d_id d) (d_id root) then
            do r <- match k with
                    | Single => Ok (make d e nil s)
                    | Pdf => make_pdf d s
                    | Epub => Ok (make_epub d docs s)
                    end ;
            Ok (put d e (fst r) (snd r))
          else Ok s
      end
  end.
Fixpoint add_targets (docs : list doc) (root d : doc) (ts : list str) (s : st) : result st :=
  match ts with nil => Ok s | t :: r => do s <- add_target docs root d t s ; add_targets docs root d r s end.
Fixpoint add_docs (docs : list doc) (root : doc) (l : list doc) (s : st) : result st :=
  match l with nil => Ok s | d :: r => do s <- add_targets docs root d (d_targets d) s ; add_docs docs root r s end.
(** receivers.py:64-65: the builders of all documents are cleared *)
Definition clear (docs : list doc) (s : st) : st :=
  mkst (fun i => if mem i (map d_id docs) then nil else reg s i) (next s).
(** receivers.py:56-84 [add_target_builders]: [rest] are the sub-documents of [root] *)
Definition add_target_builders (root : doc) (rest : list doc) (s : st) : result st :=
  let docs := root :: rest in add_docs docs root docs (clear docs s).
End Update.

(** environment.py:223-242 [collect_target_builders] *)
Definition collect (docs : list doc) (s : st) : list tb := flat_map (fun d => map snd (reg s (d_id d))) docs.
(** receivers.py:87-115 [find_builder] *)
Definition find_builder (s : st) (d : doc) (target : option str) : list tb :=
  match target with
  | Some t => match builder s d (with_period t) with Some b => [b] | None => nil end
  | None => map snd (reg s (d_id d))
  end.
(** receivers.py:14-52 [add_file], pdf_builder.py:63-66 and target_builder.py:151-162: the (identity of the)
    target builder that gets the build of the file *)
Definition add_file (s : st) (d : doc) (target : str) : result nat :=
  match builder s d (with_period target) with
  | None => Raise AssertionError
  | Some b => match find_cls (ext b) with
              | Some Pdf => match parts b with t :: _ => Ok t | nil => Raise AttributeError end
              | Some Epub => Raise AttributeError
              | _ => Ok (uid b)
              end
  end.

(** C79: titles of documents that include other documents *)
From Coq Require Import String List Bool Arith NArith ZArith Lia Permutation.
From Verif.Base Require Import Str StrFacts Dict DictFacts Result PurePath.
From Verif.Model Require Import StringUtils ListUtils Paths Context DocContext.
From Verif.Spec Require Import Context DocContext.
From Verif.Spec Require DocLabels.
From Verif.Model Require DocLabels.
From Verif.Props Require Import DocContext.
From Verif.Props Require DocLabels.
Import ListNotations.

(** A sub-document inherits the title of the document it is in, but not its short title.  (Finding: so a sub-document
    without a title of its own is shown with the title of the whole, and not with its name.) *)
Theorem C79_inherited : forall to_int to_float lower order path_value str_of_value lm, (forall l, Permutation (order l) l) ->
  forall x doc h h' d dp di F G I,
  holds h (VRef (self x)) (TDict d) F -> holds_parent h (parent x) dp G -> holds h (VRef (initial x)) (TDict di) I ->
  apart F G -> apart F I -> apart G I ->
  (forall t, lookup (lit "project_root") dp = Some t -> is_scalar t) -> (forall t, lookup (lit "project_root") di = Some t -> is_scalar t) ->
  lookup (lit "title") di = None -> lookup (lit "short") di = None ->
  reset_document to_int to_float lower order path_value str_of_value lm x doc h = Ok h' ->
  exists d' F', holds h' (VRef (self x)) (TDict d') F' /\
    forall ctx, DocLabels.reads d' ctx ->
      (forall s, lookup (lit "title") dp = Some (TS (SStr s)) ->
         DocLabels.title ctx (src_sub doc) = Ok s /\ DocLabels.short ctx (src_sub doc) = Ok s) /\
      (lookup (lit "title") dp = None ->
         forall t, DocLabels.title ctx (src_sub doc) = Ok t -> path_str (src_sub doc) = t ++ path_suffix (src_sub doc)).
Proof.
  intros to_int to_float lower order pv sv lm Ho x doc h h' d dp di F G I0 HF HG HI A1 A2 A3 Sp Si Dt Ds E.
  destruct (C62_reset _ _ _ _ _ _ _ Ho _ _ _ _ _ _ _ _ _ _ HF HG HI A1 A2 A3 Sp Si E) as (d1 & d' & F' & H1 & H2 & _ & _ & _ & _ & _ & _ & _ & _ & _ & HK).
  pose proof (inherited _ _ _ _ _ _ _ _ (H2 (lit "title")) eq_refl eq_refl Dt) as L1.
  assert (L2 : lookup (lit "short") d1 = None).
  { destruct (H2 (lit "short")) as (m & M1 & M2). rewrite Ds in M2. apply entry_same in M2. rewrite M2.
    change (mem (lit "short") (exclude_from_reset DocumentContext)) with false in M1. change (mem (lit "short") (do_not_inherit DocumentContext)) with true in M1.
    cbn iota in M1. apply entry_same in M1. exact M1. }
  rewrite <- HK in L1 by (intros C; cbn in C; repeat (destruct C as [C|C]; [discriminate C|]); exact C).
  rewrite <- HK in L2 by (intros C; cbn in C; repeat (destruct C as [C|C]; [discriminate C|]); exact C).
  exists d', F'. split; [exact H1|]. intros ctx R.
  pose proof (proj2 (R (lit "short")) L2) as R2. split.
  - intros s Hs. rewrite Hs in L1. pose proof (proj1 (R (lit "title")) s L1) as R1.
    unfold DocLabels.short, DocLabels.title. rewrite R2, R1. split; reflexivity.
  - intros Hn t Ht. rewrite Hn in L1. pose proof (proj2 (R (lit "title")) L1) as R1.
    assert (Np : parts (src_sub doc) <> nil).
    { intros C. unfold DocLabels.title, with_suffix in Ht. rewrite R1, C in Ht. match type of Ht with context [if ?b then _ else _] => destruct b end; discriminate Ht. }
    destruct (Props.DocLabels.C79_name ctx (src_sub doc) R1 Np) as (t' & E1 & E2). rewrite E1 in Ht. injection Ht as <-. exact E2.
Qed.

(** Non-vacuity: a sub-document of a document with a title and a short title *)
Definition ex_titled : dict str scalar := [(lit "title", SStr (lit "Book")); (lit "short", SStr (lit "B")); (lit "project_root", SOpq 2 0)].
Example C79_inherited_ex :
  let h := [CDict (Props.Context.scalars ex_titled); CDict (Props.Context.scalars [(lit "title", SStr (lit "old"))]); CDict (Props.Context.scalars nil)] in
  let x := {| self := 1; parent := Some 0; initial := 2 |} in
  holds h (VRef 1) (TDict [(lit "title", TS (SStr (lit "old")))]) (Props.Context.none 1) /\
  holds_parent h (Some 0) (map (fun kv => (fst kv, TS (snd kv))) ex_titled) (Props.Context.none 0) /\
  holds h (VRef 2) (TDict nil) (Props.Context.none 2) /\
  apart (Props.Context.none 1) (Props.Context.none 0) /\ apart (Props.Context.none 1) (Props.Context.none 2) /\ apart (Props.Context.none 0) (Props.Context.none 2) /\
  exists h', reset_document Props.Context.no_int Props.Context.no_float Props.Context.id_str Props.Context.id_order ex_path (fun _ => nil) (SOpq 3 0) x ex_doc h = Ok h' /\
    exists d, nth_error h' 1 = Some (CDict d) /\ lookup (lit "title") d = Some (VS (SStr (lit "Book"))) /\ lookup (lit "short") d = None.
Proof.
  cbn zeta. split; [|split; [|split; [|split; [|split; [|split]]]]].
  - apply (holds_scalars _ 1 [(lit "title", SStr (lit "old"))]); [reflexivity|]. repeat constructor. intros [].
  - apply holds_scalars; [reflexivity|]. unfold wf. vm_compute. constructor; [intros [E|[E|[]]]; discriminate E|]. constructor; [intros [E|[]]; discriminate E|]. constructor; [intros []|constructor].
  - apply (holds_scalars _ 2 nil); [reflexivity|]. constructor.
  - intros y. rewrite !Props.Context.none_iff. lia.
  - intros y. rewrite !Props.Context.none_iff. lia.
  - intros y. rewrite !Props.Context.none_iff. lia.
  - vm_compute. eexists. split; [reflexivity|]. eexists. split; [reflexivity|]. split; reflexivity.
Qed.

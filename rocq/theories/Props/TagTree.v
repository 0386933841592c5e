(** C23, C54, C55: trees of tags. *)
From Coq Require Import List Bool Arith NArith Lia.
From Verif.Base Require Import Str StrFacts ListFacts Result.
From Verif.Model Require Import TagParser TagTree.
From Verif.Spec Require Import TagParser TagTree.
From Verif.Proof Require Import TagParser TagTree.
From Verif.Props Require Import TagParser.
Import ListNotations.

(** C23: flattening a tag gives all its tags, each once, a tag before the tags
    in it and in document order, if no list is directly inside a list. *)
Theorem C23_flatten :
  forall id cls ctx (c : obj), plain_lists c ->
    flatten (OTag id cls ctx c) = tags_of (OTag id cls ctx c).
Proof. intros id cls ctx c H. apply (flatten_tags_of (OTag id cls ctx c) H). Qed.
(** C23: the contents that the parser makes are of that kind. *)
Theorem C23_flatten_parsed :
  forall uw verbatim (x : str) (c : content) id cls ctx, parse_text uw verbatim x = Ok c ->
    flatten (OTag id cls ctx (of_content c)) = tags_of (OTag id cls ctx (of_content c)).
Proof. intros uw verbatim x c id cls ctx H. apply C23_flatten. eapply of_content_tidy, parse_tidy. exact H. Qed.
(** C23 (finding): tags in a list inside a list are overlooked. *)
Theorem C23_flatten_refuted :
  ~ (forall id cls ctx (c : obj), flatten (OTag id cls ctx c) = tags_of (OTag id cls ctx c)).
Proof. intros H. specialize (H 1 0 0 (OList [OList [OTag 2 0 0 (OStr [])]])). discriminate H. Qed.

(** C23: the copy of a tag has the same shape, new identities for all its tags,
    and the given context (or the same one) everywhere. *)
Theorem C23_copy :
  forall n id cls ctx (c : obj) (new_context : option nat), plain_lists c -> no_none c ->
    let t := OTag id cls ctx c in
    exists t' n', tag_copy n t new_context = Ok (t', n') /\
      shape t' = shape t /\ NoDup (tag_ids t') /\ (forall i, In i (tag_ids t') -> n <= i < n') /\
      tag_contexts t' = match new_context with
                        | Some k => map (fun _ => k) (tag_contexts t)
                        | None => tag_contexts t
                        end.
Proof.
  intros n id cls ctx c new Hp Hn t. destruct (copy_spec t n Hn) as (t' & n' & E & H1 & H2 & H3 & H4 & H5 & H6).
  unfold tag_copy. rewrite E. cbn [bind fst snd]. destruct new as [k|]; [|exists t', n'; auto].
  exists (replace_context t' k), n'. unfold replace_context.
  assert (Ht : is_tag t' = true) by (destruct t'; try discriminate H2; reflexivity).
  rewrite (flatten_ids t' (H6 Hp) Ht). destruct (set_context_all t' (tag_ids t') k (fun i Hi => Hi)) as (A1 & A2 & A3).
  rewrite A1, A2, A3. split; [reflexivity|]. split; [exact H2|]. split; [exact H4|]. split; [exact H5|].
  rewrite <- H3. unfold tag_ids, tag_contexts. rewrite !map_map. reflexivity.
Qed.
(** C23 (finding): with a list inside a list, some tags of the copy keep the old context. *)
Theorem C23_copy_refuted :
  ~ (forall n id cls ctx (c : obj) k t' n', no_none c -> tag_copy n (OTag id cls ctx c) (Some k) = Ok (t', n') ->
       Forall (eq k) (tag_contexts t')).
Proof.
  intros H. specialize (H 10 1 0 0 (OList [OList [OTag 2 0 0 (OStr [])]]) 7 _ _ ltac:(cbn; tauto) eq_refl).
  inversion H as [|? ? _ H']; subst. inversion H' as [|? ? E _]; subst. discriminate E.
Qed.

(** C54: the plain text of a parsed text is the text without the markup. *)
Theorem C54_plain_text :
  forall uw verbatim (x : str) (c : content), parse_text uw verbatim x = Ok c ->
    source_of c x /\ default_fmt (of_content c) = Ok (OStr (plain_text c)).
Proof.
  intros uw verbatim x c H. split; [eapply C20_text_preserved; exact H|]. apply parse_tidy in H. apply of_content_tidy in H as [H1 H2].
  rewrite default_fmt_text by assumption. rewrite of_content_text. reflexivity.
Qed.
(** C54: in general for tags without lists inside lists and without None. *)
Theorem C54_plain_text_tree :
  forall o : obj, plain_lists o -> no_none o -> default_fmt o = Ok (OStr (text_of o)).
Proof. exact default_fmt_text. Qed.
(** C54 (finding): otherwise the text cannot be made. *)
Theorem C54_plain_text_refuted :
  ~ (forall o : obj, exists s, default_fmt o = Ok (OStr s)).
Proof.
  intros H. destruct (H (OList [OStr (lit "a"); OList [OStr (lit "b")]])) as [s E]. discriminate E.
Qed.

(** C55: replacing the tags of a class leaves none of them, and leaves trees
    without them alone. *)
Theorem C55_replaced :
  forall (sub : nat -> bool) (new : str) (o : obj),
    Forall (fun c => sub c = false) (tag_classes (repl_tags sub new o)).
Proof. exact repl_classes. Qed.
Theorem C55_others_kept :
  forall (sub : nat -> bool) (new : str) (o : obj),
    Forall (fun c => sub c = false) (tag_classes o) -> repl_tags sub new o = o.
Proof.
  intros sub new. induction o as [s| |id cls ctx c IH|l IH] using obj_ind'; intros H; cbn [repl_tags]; try reflexivity.
  - unfold tag_classes in *. cbn [tags_of map] in H. apply Forall_cons_iff in H as [H1 H2]. rewrite H1, IH by exact H2. reflexivity.
  - f_equal. rewrite <- (map_id l) at 2. apply map_ext_in. intros o Ho. rewrite Forall_forall in IH. apply IH; [exact Ho|].
    unfold tag_classes in *. cbn [tags_of] in H. rewrite concat_map, map_map in H. rewrite Forall_forall in *. intros k Hk. apply H.
    apply in_concat. eexists. split; [apply in_map; exact Ho|exact Hk].
Qed.
(** C55: the text that remains is the text with every such tag replaced. *)
Fixpoint replaced_text (sub : nat -> bool) (new : str) (o : obj) : str :=
  match o with
  | OStr s => s
  | ONone => []
  | OTag _ cls _ c => if sub cls then new else replaced_text sub new c
  | OList l => concat (map (replaced_text sub new) l)
  end.
Theorem C55_text :
  forall (sub : nat -> bool) (new : str) (o : obj), text_of (repl_tags sub new o) = replaced_text sub new o.
Proof.
  intros sub new. induction o as [s| |id cls ctx c IH|l IH] using obj_ind'; cbn [repl_tags text_of replaced_text]; auto.
  - destruct (sub cls); [reflexivity|exact IH].
  - f_equal. rewrite map_map. apply map_ext_in. intros o Ho. rewrite Forall_forall in IH. auto.
Qed.

(** A tag with a list, a tag in a tag, and text. *)
Definition ex_tree : obj :=
  OTag 1 10 5 (OList [OStr (lit "a "); OTag 2 11 5 (OTag 3 12 5 (OStr (lit "b"))); OTag 4 11 5 (OList [OStr (lit "c"); OTag 5 10 5 (OStr (lit "d"))])]).
Example C23_ex : plain_lists ex_tree /\ no_none ex_tree /\ ids (flatten ex_tree) = [1; 2; 3; 4; 5] /\
  match tag_copy 20 ex_tree (Some 6) with
  | Ok (t, n) => n = 25 /\ tag_ids t = [20; 21; 22; 23; 24] /\ tag_contexts t = [6; 6; 6; 6; 6]
  | Raise _ => False
  end.
Proof.
  split; [cbn; intuition discriminate|]. split; [cbn; tauto|]. split; [reflexivity|].
  vm_compute. auto.
Qed.
Example C54_ex : default_fmt ex_tree = Ok (OStr (lit "a bcd")).
Proof. reflexivity. Qed.
Example C55_ex : text_of (repl_tags (Nat.eqb 11) (lit "*") ex_tree) = lit "a **".
Proof. reflexivity. Qed.

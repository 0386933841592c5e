(** Properties C29 and C30 *)
From Coq Require Import List Bool Arith NArith Permutation Lia.
From Verif.Base Require Import Str StrFacts Dict Sort Result PurePath ListFacts SortFacts.
From Verif.Model Require Import Hash Decider.
From Verif.Spec Require Import Hash.
From Verif.Proof Require Import Hash.
Import ListNotations.

Section Props.
Variables (digest hexdigest encode : str -> str).

(** * C29 *)

(** The hash does not depend on how files are read. *)
Theorem C29_chunks : forall n m sort files items, 0 < n -> 0 < m ->
  hash_items digest hexdigest encode n sort files items = hash_items digest hexdigest encode m sort files items.
Proof. intros. unfold hash_items. now rewrite (hash_each_chunk digest encode n m). Qed.

(** It does not depend on the order of the items. *)
Theorem C29_order : forall n files items items', Permutation items items' ->
  hash_items digest hexdigest encode n true files items = hash_items digest hexdigest encode n true files items'.
Proof. intros. now apply hash_items_perm. Qed.

(** The same for the inputs of a build. *)
Theorem C29_inputs : forall bytes_str w inputs inputs' output, Permutation inputs inputs' ->
  calculate_hash digest hexdigest encode bytes_str w inputs output = calculate_hash digest hexdigest encode bytes_str w inputs' output.
Proof.
  intros bs w i i' o P. unfold calculate_hash.
  rewrite (hash_items_perm digest hexdigest encode default_chunk (files w) (isort (fun x y => str_leb (item_str bs x) (item_str bs y)) i)
    (isort (fun x y => str_leb (item_str bs x) (item_str bs y)) i')); auto.
  now rewrite !isort_perm.
Qed.

(** Whole files are hashed: the hash of a single item is that of the hash of
    its bytes. *)
Theorem C29_whole : forall n sort files i b, 0 < n -> bytes_of encode files i b ->
  hash_items digest hexdigest encode n sort files [i] = Ok (hexdigest (digest b)).
Proof.
  intros n sort files i b Hn H. unfold hash_items. cbn [hash_each]. rewrite (bytes_hash _ _ _ _ _ _ Hn H). cbn.
  destruct sort; cbn; now rewrite app_nil_r.
Qed.

(** Items whose bytes are not the same, in some order, have different hashes,
    unless the hash function gives the same result for two of the texts hashed. *)
Theorem C29_distinct : forall n k files items bs files' items' bs' (S : str -> Prop) h, 0 < n -> 0 < k ->
  (forall x, length (digest x) = k) ->
  Forall2 (bytes_of encode files) items bs -> Forall2 (bytes_of encode files') items' bs' ->
  Forall S bs -> Forall S bs' -> no_collision digest S ->
  S (concat (isort str_leb (map digest bs))) -> S (concat (isort str_leb (map digest bs'))) -> no_collision hexdigest S ->
  hash_items digest hexdigest encode n true files items = Ok h ->
  hash_items digest hexdigest encode n true files' items' = Ok h ->
  Permutation bs bs'.
Proof.
  intros n k files items bs files' items' bs' S h Hn Hk Hlen B B' Sb Sb' NC S1 S2 NH E E'.
  unfold hash_items in E, E'.
  rewrite (bytes_hash_each digest encode n files items bs Hn B) in E. rewrite (bytes_hash_each digest encode n files' items' bs' Hn B') in E'.
  cbn [bind] in E, E'. assert (X : hexdigest (concat (isort str_leb (map digest bs))) = hexdigest (concat (isort str_leb (map digest bs')))) by congruence.
  apply NH in X; auto.
  assert (F : forall l, Forall (fun x : str => length x = k) (isort str_leb (map digest l))).
  { intros l. rewrite Forall_forall. intros x Hx. eapply Permutation_in in Hx; [|apply isort_perm].
    apply in_map_iff in Hx. destruct Hx as (y & <- & _). apply Hlen. }
  apply (concat_inj k) in X; auto.
  apply (map_inj_perm digest S); auto.
  rewrite <- (isort_perm str_leb (map digest bs)), <- (isort_perm str_leb (map digest bs')), X. reflexivity.
Qed.

(** * C30 *)

(** The hash of a pdf file is that of its lines without the stamps. *)
Theorem C30_text : forall n content text, 0 < n -> pdf_text content text -> hash_pdf digest n content = digest text.
Proof. intros n c t Hn H. rewrite hash_pdf_ok by auto. apply pdf_text_eq in H. now subst. Qed.

(** Files that are the same but for time stamps and identifiers have the same hash. *)
Theorem C30_stamps : forall n content content', 0 < n -> same_but_stamps content content' ->
  hash_pdf digest n content = hash_pdf digest n content'.
Proof. intros n c c' Hn H. rewrite !hash_pdf_ok by auto. now rewrite (same_lines_kept _ _ H). Qed.

(** Files whose other lines, one after the other, are different texts have
    different hashes, unless the hash function gives the same result for both. *)
Theorem C30_other_partial : forall n content content' text text' (S : str -> Prop), 0 < n ->
  pdf_text content text -> pdf_text content' text' -> S text -> S text' -> no_collision digest S ->
  hash_pdf digest n content = hash_pdf digest n content' -> text = text'.
Proof.
  intros n c c' t t' S Hn H H' St St' NC E. rewrite (C30_text _ _ _ Hn H), (C30_text _ _ _ Hn H') in E. auto.
Qed.

(** Finding: the ends of lines are not hashed, so that other differences may go
    unnoticed, whatever the hash function. *)
Theorem C30_lines_refuted :
  ~ (forall n content content', 0 < n -> hash_pdf digest n content = hash_pdf digest n content' -> same_but_stamps content content').
Proof.
  intros H. specialize (H 1 (lit "1
23") (lit "12
3") (le_n 1)). rewrite !hash_pdf_ok in H by lia. specialize (H eq_refl). unfold same_but_stamps in H. cbn in H.
  assert (N : forall c r, ~ is_stamp (c :: r) \/ c = 47%N).
  { intros c r. destruct (N.eq_dec c 47) as [|Hc]; auto. left. intros [x [E|[E|E]]]; cbn in E; congruence. }
  inversion H as [|? ? ? H1|? ? ? H1|? ? ? H1]; subst.
  - destruct (N 49%N nil) as [X|X]; [contradiction|discriminate].
  - destruct (N 49%N [50%N]) as [X|X]; [contradiction|discriminate].
Qed.
End Props.

(** A pdf file with a stamp, read in chunks of three bytes *)
Example C30_ex : forall digest,
  hash_pdf digest 3 (lit "ab
/ModDate 1
cd") = digest (lit "abcd") /\ hash_pdf digest 4096 (lit "ab
/ID x
/ModDate 17
cd") = digest (lit "abcd") /\
  same_but_stamps (lit "ab
/ModDate 1
cd") (lit "ab
/ID x
/ModDate 17
cd") /\ pdf_text (lit "ab
/ModDate 1
cd") (lit "abcd").
Proof.
  intros digest. split; [|split; [|split]].
  - reflexivity.
  - reflexivity.
  - unfold same_but_stamps. vm_compute. apply sl_keep. apply sl_right; [exists (lit " x"); vm_compute; auto|].
    apply sl_left; [exists (lit " 1"); vm_compute; auto|]. apply sl_right; [exists (lit " 17"); vm_compute; auto|].
    apply sl_keep. constructor.
  - apply pdf_text_eq. reflexivity.
Qed.
(** A file and a text, in both orders *)
Example C29_ex : forall digest hexdigest encode n,
  let fs := [(of_str (lit "a/b.txt"), lit "xy")] in
  Forall2 (bytes_of encode fs) [IText (lit "copy"); IPath (of_str (lit "a/b.txt"))] [encode (lit "copy"); lit "xy"] /\
  hash_items digest hexdigest encode (S n) true fs [IText (lit "copy"); IPath (of_str (lit "a/b.txt"))] =
  hash_items digest hexdigest encode 4096 true fs [IPath (of_str (lit "a/b.txt")); IText (lit "copy")].
Proof.
  intros. split.
  - constructor; [constructor|]. constructor; [|constructor]. apply bo_file; [reflexivity|discriminate].
  - rewrite (C29_chunks digest hexdigest encode (S n) 4096) by lia. apply C29_order. constructor.
Qed.

(** Property C28, for the decider *)
From Coq Require Import List Bool Arith NArith Permutation Lia.
From Verif.Base Require Import Str StrFacts Dict DictFacts Sort SortFacts Result PurePath.
From Verif.Model Require Import Hash Decider.
From Verif.Spec Require Import Hash Decider.
From Verif.Proof Require Import Hash Decider.
Import ListNotations.

Section Props.
Variables (digest hexdigest encode bytes_str : str -> str).
Notation needed := (needed digest hexdigest encode bytes_str).
Notation not_needed := (not_needed digest hexdigest encode bytes_str).
Notation registered := (registered digest hexdigest encode bytes_str).
Notation history := (history digest hexdigest encode bytes_str).
Notation calculate_hash := (calculate_hash digest hexdigest encode bytes_str).

(** The decider has an answer for all inputs; to ask does not change anything. *)
Theorem C28_total : forall w i o, i <> nil -> needed w i o \/ not_needed w i o.
Proof. intros w i o Hi. destruct (needed_spec digest hexdigest encode bytes_str w i o Hi) as [H|[H _]]; [now left|now right]. Qed.

(** When a file is missing a build is needed. *)
Theorem C28_missing : forall w i o, i <> nil -> ~ present w i o -> needed w i o.
Proof.
  intros w i o Hi H. unfold Spec.Decider.needed, build_needed. destruct i; [contradiction|].
  now rewrite (proj2 (missing_true w _ o) H).
Qed.

(** When the files of a build exist it can be registered, and is not needed then. *)
Theorem C28_registers : forall w i o, i <> nil -> present w i o ->
  exists w', registered w i o w' /\ files w' = files w /\ not_needed w' i o.
Proof.
  intros w i o Hi P. destruct (reset_spec digest hexdigest encode bytes_str w i o Hi P) as (k & v & E & H).
  eexists. split; [exact H|]. split; [reflexivity|].
  assert (S : same_files i o w {| files := files w; db := set k v (db w) |}) by (split; auto).
  destruct (needed_spec digest hexdigest encode bytes_str {| files := files w; db := set k v (db w) |} i o Hi) as [N|[N _]]; auto.
  exfalso. unfold build_needed in N. destruct i; [contradiction|].
  rewrite (proj2 (missing_false _ _ o) (present_same _ _ _ _ S P)), (calculate_same _ _ _ _ _ _ _ _ S), E in N.
  cbn in N. rewrite lookup_set_eq, eqb_refl in N. discriminate.
Qed.

(** A registered build stays not needed through any history at whose end its
    files are what they were, if no other build with the same hash of its inputs
    registers a different output in between. *)
Theorem C28_stays_partial : forall w i o w1 l w2, registered w i o w1 -> history w1 l = Ok w2 -> same_files i o w w2 ->
  (forall a i' o' b w' k v v', l = a ++ Finished i' o' :: b -> history w1 a = Ok w' ->
     calculate_hash w i o = Ok (k, v) -> calculate_hash w' i' o' = Ok (k, v') -> v' = v) ->
  not_needed w2 i o.
Proof.
  intros w i o w1 l w2 R H S C. destruct (registered_inv _ _ _ _ _ _ _ _ R) as (Hi & P & k & v & E & ->).
  assert (L : lookup k (db w2) = Some v).
  { eapply db_kept; [exact H|cbn; apply lookup_set_eq|]. intros a i' o' b w' v' El Ha Hc. eapply C; eauto. }
  unfold Spec.Decider.not_needed, build_needed. destruct i; [contradiction|].
  rewrite (proj2 (missing_false _ _ o) (present_same _ _ _ _ S P)), (calculate_same _ _ _ _ _ _ _ _ S), E.
  cbn. now rewrite L, eqb_refl.
Qed.
(** In particular through any edits of files, ... *)
Theorem C28_stays_edits : forall w i o w1 l w2, registered w i o w1 ->
  (forall e, In e l -> match e with Finished _ _ => False | _ => True end) ->
  history w1 l = Ok w2 -> same_files i o w w2 -> not_needed w2 i o.
Proof.
  intros w i o w1 l w2 R N H S. eapply C28_stays_partial; eauto.
  intros a i' o' b w' k v v' -> _ _ _. exfalso. apply (N (Finished i' o')). apply in_or_app. right. now left.
Qed.

(** When a build is not needed, then a build with the same hashes of inputs and
    output was registered before. *)
Theorem C28_changed : forall f l w i o, history {| files := f; db := nil |} l = Ok w -> i <> nil -> not_needed w i o ->
  exists a i' o' b w', l = a ++ Finished i' o' :: b /\ history {| files := f; db := nil |} a = Ok w' /\
    present w' i' o' /\ calculate_hash w' i' o' = calculate_hash w i o.
Proof.
  intros f l w i o H Hi N. destruct (needed_spec digest hexdigest encode bytes_str w i o Hi) as [N'|(_ & P & k & v & E & L)].
  - unfold Spec.Decider.not_needed in N. congruence.
  - destruct (db_origin _ _ _ _ _ _ _ _ _ H L) as [L0|(a & i' & o' & b & w' & El & H1 & H2 & H3)]; [discriminate|].
    exists a, i', o', b, w'. rewrite E. auto.
Qed.

(** Such hashes are those of the same bytes: the inputs (in some order) and the
    output, unless the hash function gives one result for two of the texts. *)
Theorem C28_same_bytes : forall w i o w' i' o' bs c bs' c' k (S : str -> Prop), 0 < k -> (forall x, length (digest x) = k) ->
  calculate_hash w' i' o' = calculate_hash w i o -> present w i o ->
  Forall2 (bytes_of encode (files w)) i bs -> bytes_of encode (files w) (IPath o) c ->
  Forall2 (bytes_of encode (files w')) i' bs' -> bytes_of encode (files w') (IPath o') c' ->
  Forall S (c :: c' :: bs ++ bs') -> S (digest c) -> S (digest c') ->
  S (concat (isort str_leb (map digest bs))) -> S (concat (isort str_leb (map digest bs'))) ->
  no_collision digest S -> no_collision hexdigest S ->
  Permutation bs bs' /\ c = c'.
Proof.
  intros w i o w' i' o' bs c bs' c' k S Hk Hlen E P B C B' C' F S1 S2 S3 S4 NC NH.
  destruct (calculate_total digest hexdigest encode bytes_str w i o P) as (x & y & E1). rewrite E1 in E.
  destruct (calculate_bytes _ _ _ _ _ _ _ _ _ E1) as (bs1 & c1 & B1 & C1 & X1 & Y1).
  destruct (calculate_bytes _ _ _ _ _ _ _ _ _ E) as (bs2 & c2 & B2 & C2 & X2 & Y2).
  assert (Fun : forall f l u v, Forall2 (bytes_of encode f) l u -> Forall2 (bytes_of encode f) l v -> u = v).
  { clear. intros f l u v H. revert v. induction H; intros v Hv; inversion Hv; subst; auto. f_equal; [eapply bytes_fun; eauto|auto]. }
  assert (bs1 = bs) as -> by eauto. assert (bs2 = bs') as -> by eauto.
  assert (c1 = c) as -> by (eapply bytes_fun; eauto). assert (c2 = c') as -> by (eapply bytes_fun; eauto).
  inversion F as [|? ? Sc F']; subst. inversion F' as [|? ? Sc' F'']; subst. apply Forall_app in F''. destruct F'' as [F1 F2].
  split.
  - apply (map_inj_perm digest S); auto.
    assert (Fl : forall l, Forall (fun x : str => length x = k) (isort str_leb (map digest l))).
    { intros l. rewrite Forall_forall. intros z Hz. eapply Permutation_in in Hz; [|apply isort_perm].
      apply in_map_iff in Hz. destruct Hz as (u & <- & _). apply Hlen. }
    assert (X : isort str_leb (map digest bs) = isort str_leb (map digest bs')).
    { apply (concat_inj k); auto. }
    rewrite <- (isort_perm str_leb (map digest bs)), <- (isort_perm str_leb (map digest bs')), X. reflexivity.
  - apply NC; auto.
Qed.

(** Finding: two inputs that are exchanged are not noticed. *)
Theorem C28_swapped_refuted :
  ~ (forall w i o w1 l w2 p, registered w i o w1 -> history w1 l = Ok w2 ->
     (forall e, In e l -> match e with Finished _ _ => False | _ => True end) ->
     In (IPath p) i -> path_suffix p <> lit ".pdf" -> lookup p (files w2) <> lookup p (files w) -> needed w2 i o).
Proof.
  intros H.
  set (a := of_str (lit "a")). set (b := of_str (lit "b")). set (o := of_str (lit "o")).
  set (w := {| files := [(a, lit "1"); (b, lit "2"); (o, lit "12")]; db := nil |}).
  assert (P : present w [IPath a; IPath b] o).
  { split; [|eexists; reflexivity]. intros p [E|[E|[]]]; injection E as <-; eexists; reflexivity. }
  destruct (reset_spec digest hexdigest encode bytes_str w [IPath a; IPath b] o ltac:(discriminate) P) as (k & v & E & R).
  set (w1 := {| files := files w; db := set k v (db w) |}) in *.
  set (w2 := {| files := set b (lit "1") (set a (lit "2") (files w)); db := set k v (db w) |}).
  specialize (H w _ o w1 [Write a (lit "2"); Write b (lit "1")] w2 a R eq_refl).
  assert (N : needed w2 [IPath a; IPath b] o).
  { apply H; [|now left|discriminate|discriminate]. intros e [<-|[<-|[]]]; exact I. }
  assert (E2 : calculate_hash w2 [IPath a; IPath b] o = Ok (k, v)).
  { destruct (calculate_bytes _ _ _ _ _ _ _ _ _ E) as (bs & c & B & C & -> & ->).
    assert (P2 : present w2 [IPath a; IPath b] o).
    { split; [|eexists; reflexivity]. intros p [E'|[E'|[]]]; injection E' as <-; eexists; reflexivity. }
    destruct (calculate_total digest hexdigest encode bytes_str w2 _ _ P2) as (k' & v' & E').
    rewrite E'. destruct (calculate_bytes _ _ _ _ _ _ _ _ _ E') as (bs' & c' & B' & C' & -> & ->).
    assert (X : forall f p c0, lookup p f = Some c0 -> path_suffix p <> lit ".pdf" -> bytes_of encode f (IPath p) c0) by (intros; now constructor).
    assert (bs = [lit "1"; lit "2"] /\ bs' = [lit "2"; lit "1"] /\ c = c') as (-> & -> & ->).
    { inversion B as [|? ? ? ? Ba Bb]; subst. inversion Bb as [|? ? ? ? Bc Bd]; subst. inversion Bd; subst.
      inversion B' as [|? ? ? ? Ba' Bb']; subst. inversion Bb' as [|? ? ? ? Bc' Bd']; subst. inversion Bd'; subst.
      split; [f_equal; [|f_equal]; eapply bytes_fun; eauto; apply X; (reflexivity||discriminate)|].
      split; [f_equal; [|f_equal]; eapply bytes_fun; eauto; apply X; (reflexivity||discriminate)|].
      transitivity (lit "12"); [eapply bytes_fun; [exact C|]|eapply bytes_fun; [|exact C']]; apply X; (reflexivity||discriminate). }
    f_equal. f_equal. f_equal. f_equal. apply isort_str_perm. cbn. constructor. }
  unfold Spec.Decider.needed, build_needed in N.
  rewrite (proj2 (missing_false _ _ _)) in N.
  2:{ split; [|eexists; reflexivity]. intros p [E'|[E'|[]]]; injection E' as <-; eexists; reflexivity. }
  rewrite E2 in N. cbn in N. rewrite eqb_refl in N. cbn in N. rewrite eqb_refl in N. discriminate N.
Qed.

(** Finding: two builds with the same bytes as inputs share one entry.  When
    their outputs differ, registering one makes the other needed, although none
    of its files changed. *)
Theorem C28_shared_refuted : forall x y, hexdigest (digest x) <> hexdigest (digest y) ->
  ~ (forall w i o w1 l w2, registered w i o w1 -> history w1 l = Ok w2 -> same_files i o w w2 -> not_needed w2 i o).
Proof.
  intros x y Hxy H.
  set (o := of_str (lit "o")). set (o' := of_str (lit "p")). set (i := [IText (lit "t")]).
  set (w := {| files := [(o, x); (o', y)]; db := nil |}).
  assert (P : present w i o). { split; [|eexists; reflexivity]. intros p [E|[]]; discriminate. }
  assert (P' : present w i o'). { split; [|eexists; reflexivity]. intros p [E|[]]; discriminate. }
  destruct (reset_spec digest hexdigest encode bytes_str w i o ltac:(discriminate) P) as (k & v & E & R).
  set (w1 := {| files := files w; db := set k v (db w) |}) in *.
  destruct (reset_spec digest hexdigest encode bytes_str w1 i o' ltac:(discriminate) P') as (k' & v' & E' & R').
  set (w2 := {| files := files w1; db := set k' v' (db w1) |}) in *.
  assert (N : not_needed w2 i o).
  { apply (H w i o w1 [Finished i o']); auto; [|split; auto]. cbn [Spec.Decider.history Spec.Decider.step]. rewrite R'. reflexivity. }
  assert (X : forall f p c0, lookup p f = Some c0 -> path_suffix p <> lit ".pdf" -> bytes_of encode f (IPath p) c0) by (intros; now constructor).
  destruct (calculate_bytes _ _ _ _ _ _ _ _ _ E) as (bs & c & B & C & -> & ->).
  destruct (calculate_bytes _ _ _ _ _ _ _ _ _ E') as (bs' & c' & B' & C' & -> & ->).
  assert (c = x) as -> by (eapply bytes_fun; [exact C|apply X; [reflexivity|discriminate]]).
  assert (c' = y) as -> by (eapply bytes_fun; [exact C'|apply X; [reflexivity|discriminate]]).
  assert (bs' = bs) as ->.
  { inversion B as [|? ? ? ? Ba Bb]; subst. inversion Bb; subst. inversion B' as [|? ? ? ? Ba' Bb']; subst. inversion Bb'; subst.
    inversion Ba; subst. inversion Ba'; subst. reflexivity. }
  unfold Spec.Decider.not_needed, build_needed in N. cbn [i] in N.
  assert (M2 : missing w2 i o = false) by (apply missing_false; exact P). unfold i in M2, N at 1. rewrite M2 in N.
  assert (E2 : calculate_hash w2 i o = calculate_hash w i o) by (apply calculate_same; split; auto).
  fold i in N. rewrite E2, E in N. cbn [bind fst snd] in N.
  unfold w2, w1 in N. cbn [db] in N. rewrite lookup_set_eq in N.
  assert (Z : negb (eqb (Some (hexdigest (digest y))) (Some (hexdigest (digest x)))) = false) by congruence.
  apply negb_eqb_false in Z. congruence.
Qed.
End Props.

(** Two inputs, one a text, and an output; the build is registered, then another
    file is edited. *)
Example C28_ex : forall digest hexdigest encode bytes_str,
  let w := {| files := [(of_str (lit "a.tex"), lit "1"); (of_str (lit "o"), lit "2")]; db := nil |} in
  let i := [IPath (of_str (lit "a.tex")); IText (lit "run")] in
  exists w1 w2, registered digest hexdigest encode bytes_str w i (of_str (lit "o")) w1 /\
    history digest hexdigest encode bytes_str w1 [Write (of_str (lit "b")) (lit "3")] = Ok w2 /\ same_files i (of_str (lit "o")) w w2.
Proof.
  intros. destruct (reset_spec digest hexdigest encode bytes_str w i (of_str (lit "o"))) as (k & v & E & R).
  - discriminate.
  - split; [|eexists; reflexivity]. intros p [X|[X|[]]]; [injection X as <-; eexists; reflexivity|discriminate].
  - eexists _, _. split; [exact R|]. split; [reflexivity|]. split; [|reflexivity].
    intros p [X|[X|[]]]; [injection X as <-; reflexivity|discriminate].
Qed.

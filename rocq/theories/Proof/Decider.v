From Coq Require Import List Bool Arith NArith Permutation Lia.
From Verif.Base Require Import Str StrFacts Dict DictFacts Sort SortFacts Result PurePath.
From Verif.Model Require Import Hash Decider.
From Verif.Spec Require Import Hash Decider.
From Verif.Proof Require Import Hash.
Import ListNotations.

Lemma missing_false w i o : missing w i o = false <-> present w i o.
Proof.
  unfold missing, present. rewrite orb_false_iff, !negb_false_iff, forallb_forall, has_lookup. split; intros [H1 H2]; split; auto.
  - intros p Hp. apply has_lookup. exact (H1 _ Hp).
  - intros x Hx. destruct x; auto. apply has_lookup; auto.
Qed.
Lemma missing_true w i o : missing w i o = true <-> ~ present w i o.
Proof. rewrite <- missing_false. destruct (missing w i o); split; congruence. Qed.

Lemma negb_eqb_false {A} `{EqDec A} (x y : A) : negb (eqb x y) = false <-> x = y.
Proof. rewrite negb_false_iff. apply eqb_eq. Qed.
Lemma default_chunk_pos : 0 < default_chunk.
Proof. unfold default_chunk. lia. Qed.
#[global] Opaque default_chunk.

Section D.
Variables (digest hexdigest encode bytes_str : str -> str).
Notation hash_item := (hash_item digest encode). Notation hash_each := (hash_each digest encode).
Notation calculate_hash := (calculate_hash digest hexdigest encode bytes_str).
Notation build_needed := (build_needed digest hexdigest encode bytes_str).
Notation history := (history digest hexdigest encode bytes_str). Notation step := (step digest hexdigest encode bytes_str).

Lemma hash_each_same n f f' l : (forall p, In (IPath p) l -> lookup p f' = lookup p f) -> hash_each n f' l = hash_each n f l.
Proof.
  induction l as [|i l IH]; intros H; cbn [Hash.hash_each]; auto.
  assert (E : hash_item n f' i = hash_item n f i).
  { destruct i; cbn; auto. rewrite H by now left. reflexivity. }
  rewrite E, IH; auto. intros p Hp. apply H. now right.
Qed.
Lemma calculate_same w w' i o : same_files i o w w' -> calculate_hash w' i o = calculate_hash w i o.
Proof.
  intros [H1 H2]. unfold Decider.calculate_hash, hash_items.
  rewrite (hash_each_same _ (files w) (files w')).
  2:{ intros p Hp. apply H1. eapply Permutation_in; [apply isort_perm|exact Hp]. }
  rewrite (hash_each_same _ (files w) (files w') [IPath o]); auto.
  intros p [E|[]]. injection E as <-. exact H2.
Qed.
Lemma present_same w w' i o : same_files i o w w' -> present w i o -> present w' i o.
Proof. intros [H1 H2] [P1 P2]. split; [intros p Hp; rewrite H1 by auto; auto|rewrite H2; auto]. Qed.

Lemma hash_each_total n f l : (forall p, In (IPath p) l -> exists c, lookup p f = Some c) -> exists hs, hash_each n f l = Ok hs.
Proof.
  induction l as [|i l IH]; intros H; cbn [Hash.hash_each]; [eauto|].
  destruct IH as [hs Hhs]; [intros p Hp; apply H; now right|].
  assert (E : exists h, hash_item n f i = Ok h).
  { destruct i; cbn; eauto. destruct (H p) as [c Hc]; [now left|]. rewrite Hc. eauto. }
  destruct E as [h Hh]. rewrite Hh, Hhs. cbn. eauto.
Qed.
Lemma calculate_total w i o : present w i o -> exists k v, calculate_hash w i o = Ok (k, v).
Proof.
  intros [H1 H2]. unfold Decider.calculate_hash, hash_items.
  destruct (hash_each_total default_chunk (files w) (isort (fun x y => str_leb (item_str bytes_str x) (item_str bytes_str y)) i)) as [a Ha].
  { intros p Hp. apply H1. eapply Permutation_in; [apply isort_perm|exact Hp]. }
  destruct (hash_each_total default_chunk (files w) [IPath o]) as [b Hb].
  { intros p [E|[]]. injection E as <-. exact H2. }
  rewrite Ha, Hb. cbn. eauto.
Qed.

Lemma needed_spec w i o : i <> nil ->
  build_needed w i o false = Ok (true, w) \/
  (build_needed w i o false = Ok (false, w) /\ present w i o /\ exists k v, calculate_hash w i o = Ok (k, v) /\ lookup k (db w) = Some v).
Proof.
  intros Hi. unfold Decider.build_needed. destruct i as [|x i]; [contradiction|].
  destruct (missing w (x :: i) o) eqn:M; [now left|]. apply missing_false in M.
  destruct (calculate_total _ _ _ M) as (k & v & E). rewrite E. cbn [bind fst snd].
  destruct (eqb_spec (lookup k (db w)) (Some v)) as [L|L]; cbn; [right|now left]. split; auto. split; auto. exists k, v. auto.
Qed.
Lemma reset_spec w i o : i <> nil -> present w i o ->
  exists k v, calculate_hash w i o = Ok (k, v) /\ build_needed w i o true = Ok (false, {| files := files w; db := set k v (db w) |}).
Proof.
  intros Hi M. destruct (calculate_total _ _ _ M) as (k & v & E). exists k, v. split; auto.
  unfold Decider.build_needed. destruct i as [|x i]; [contradiction|]. rewrite (proj2 (missing_false w (x :: i) o) M), E. reflexivity.
Qed.
Lemma registered_inv w i o w' : build_needed w i o true = Ok (false, w') ->
  i <> nil /\ present w i o /\ exists k v, calculate_hash w i o = Ok (k, v) /\ w' = {| files := files w; db := set k v (db w) |}.
Proof.
  unfold Decider.build_needed. destruct i as [|x i]; [discriminate|]. destruct (missing w (x :: i) o) eqn:M; [discriminate|].
  apply missing_false in M. destruct (calculate_total _ _ _ M) as (k & v & E). rewrite E. cbn. intros H. injection H as <-.
  split; [discriminate|]. split; auto. exists k, v; auto.
Qed.

(** One step changes the database for one key at most *)
Lemma step_db w e w' : step w e = Ok w' ->
  db w' = db w \/ exists i o k v, e = Finished i o /\ present w i o /\ i <> nil /\ calculate_hash w i o = Ok (k, v) /\ db w' = set k v (db w) /\ files w' = files w.
Proof.
  destruct e as [p c|p|i o]; cbn [Spec.Decider.step].
  - intros E. injection E as <-. now left.
  - intros E. injection E as <-. now left.
  - unfold Decider.build_needed. destruct i as [|x i]; [discriminate|]. destruct (missing w (x :: i) o) eqn:M; cbn.
    + intros E. injection E as <-. now left.
    + apply missing_false in M. destruct (calculate_total _ _ _ M) as (k & v & E). rewrite E. cbn. intros E'. injection E' as <-.
      right. exists (x :: i), o, k, v. split; auto. split; auto. split; [discriminate|]. auto.
Qed.

(** Every entry of the database was registered at some time *)
Lemma db_origin w0 l w k v : history w0 l = Ok w -> lookup k (db w) = Some v ->
  lookup k (db w0) = Some v \/
  exists a i o b w', l = a ++ Finished i o :: b /\ history w0 a = Ok w' /\ present w' i o /\ calculate_hash w' i o = Ok (k, v).
Proof.
  revert w0. induction l as [|e l IH]; intros w0 H L; cbn [Spec.Decider.history] in H.
  - injection H as <-. now left.
  - destruct (step w0 e) as [w1|] eqn:E; [|discriminate]. cbn [bind] in H.
    destruct (IH _ H L) as [L1|(a & i & o & b & w' & -> & H1 & H2 & H3)].
    + destruct (step_db _ _ _ E) as [D|(i & o & k' & v' & -> & P & _ & C & D & _)].
      * left. congruence.
      * rewrite D, lookup_set in L1. destruct (eqb_spec k k') as [->|].
        -- injection L1 as <-. right. exists nil, i, o, l, w0. auto.
        -- now left.
    + right. exists (e :: a), i, o, b, w'. split; auto. split; auto. cbn [Spec.Decider.history]. rewrite E. exact H1.
Qed.
(** An entry is kept as long as no build registers another value for it *)
Lemma db_kept w0 l w k v : history w0 l = Ok w -> lookup k (db w0) = Some v ->
  (forall a i o b w' v', l = a ++ Finished i o :: b -> history w0 a = Ok w' -> calculate_hash w' i o = Ok (k, v') -> v' = v) ->
  lookup k (db w) = Some v.
Proof.
  revert w0. induction l as [|e l IH]; intros w0 H L C; cbn [Spec.Decider.history] in H.
  - now injection H as <-.
  - destruct (step w0 e) as [w1|] eqn:E; [|discriminate]. cbn [bind] in H. apply (IH w1); auto.
    + destruct (step_db _ _ _ E) as [D|(i & o & k' & v' & -> & P & _ & Hc & D & _)]; [congruence|].
      rewrite D, lookup_set. destruct (eqb_spec k k') as [->|]; auto. f_equal. apply (C nil i o l w0); auto.
    + intros a i o b w' v' -> Ha. apply (C (e :: a) i o b w'); auto. cbn [Spec.Decider.history]. now rewrite E.
Qed.

(** The hashes of a build and the bytes of its files *)
Lemma calculate_bytes w i o k v : calculate_hash w i o = Ok (k, v) ->
  exists bs c, Forall2 (bytes_of encode (files w)) i bs /\ bytes_of encode (files w) (IPath o) c /\
    k = hexdigest (concat (isort str_leb (map digest bs))) /\ v = hexdigest (digest c).
Proof.
  unfold Decider.calculate_hash. intros E.
  assert (P := isort_perm (fun x y => str_leb (item_str bytes_str x) (item_str bytes_str y)) i).
  rewrite (hash_items_perm _ _ _ _ _ _ _ P) in E. unfold hash_items in E.
  destruct (hash_each default_chunk (files w) i) as [hs|] eqn:E1; [|discriminate]. cbn [bind] in E.
  destruct (hash_each default_chunk (files w) [IPath o]) as [hs'|] eqn:E2; [|discriminate]. cbn [bind] in E.
  destruct (hash_each_bytes _ _ _ _ _ _ default_chunk_pos E1) as (bs & B1 & ->).
  destruct (hash_each_bytes _ _ _ _ _ _ default_chunk_pos E2) as (bs' & B2 & ->).
  inversion B2 as [|? c ? ? B3 B4]; subst. inversion B4; subst. cbn in E. rewrite app_nil_r in E.
  exists bs, c. split; auto. split; auto. split; congruence.
Qed.
End D.

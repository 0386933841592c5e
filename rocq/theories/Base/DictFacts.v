(** Facts about insertion-ordered dictionaries. *)
From Coq Require Import List Bool Arith Lia Permutation.
From Verif.Base Require Import Str StrFacts Dict.
Import ListNotations.

Section DictFacts.
Context {K : Type} `{EqDec K} {V : Type}.
Implicit Types d : dict K V.

Lemma lookup_In k v d : lookup k d = Some v -> In (k, v) d.
Proof.
  induction d as [|[k' v'] d IH]; simpl; [discriminate|].
  destruct (eqb_spec k k') as [<-|_]; [intros [= <-]; auto|auto].
Qed.
Lemma lookup_None k d : lookup k d = None <-> ~ In k (keys d).
Proof.
  induction d as [|[k' v'] d IH]; simpl; [tauto|].
  destruct (eqb_spec k k') as [<-|Hne].
  - split; [discriminate|tauto].
  - rewrite IH. intuition congruence.
Qed.
Lemma lookup_Some_keys k v d : lookup k d = Some v -> In k (keys d).
Proof. intros E. apply lookup_In in E. apply (in_map fst) in E. exact E. Qed.
Lemma keys_lookup k d : In k (keys d) -> exists v, lookup k d = Some v.
Proof.
  intros Hin. destruct (lookup k d) as [v|] eqn:E; [eauto|].
  apply lookup_None in E. contradiction.
Qed.
Lemma In_lookup k v d : wf d -> In (k, v) d -> lookup k d = Some v.
Proof.
  unfold wf, keys. induction d as [|[k' v'] d IH]; simpl; [tauto|].
  intros Hnd Hin. inversion Hnd as [|? ? Hni Hnd']; subst.
  destruct Hin as [[= <- <-]|Hin].
  - rewrite eqb_refl. reflexivity.
  - destruct (eqb_spec k k') as [->|_]; [|auto].
    apply (in_map fst) in Hin. simpl in Hin. contradiction.
Qed.
Lemma has_keys k d : has k d = true <-> In k (keys d).
Proof.
  unfold has. destruct (lookup k d) as [v|] eqn:E.
  - split; [intros _; eapply lookup_Some_keys; eauto|reflexivity].
  - split; [discriminate|]. apply lookup_None in E. tauto.
Qed.
Lemma has_false k d : has k d = false <-> ~ In k (keys d).
Proof. rewrite <- has_keys. destruct (has k d); split; congruence. Qed.
Lemma has_lookup k d : has k d = true <-> exists v, lookup k d = Some v.
Proof.
  unfold has. destruct (lookup k d); split; eauto; try discriminate. intros [v [=]].
Qed.

Lemma lookup_set k v d k' :
  lookup k' (set k v d) = if eqb k' k then Some v else lookup k' d.
Proof.
  induction d as [|[k0 v0] d IH]; simpl.
  - destruct (eqb k' k); reflexivity.
  - destruct (eqb_spec k k0) as [->|Hne]; simpl.
    + destruct (eqb_spec k' k0); reflexivity.
    + destruct (eqb_spec k' k0) as [->|].
      * destruct (eqb_spec k0 k); [congruence|reflexivity].
      * exact IH.
Qed.
Lemma lookup_set_eq k v d : lookup k (set k v d) = Some v.
Proof. rewrite lookup_set, eqb_refl. reflexivity. Qed.
Lemma lookup_set_neq k v d k' : k' <> k -> lookup k' (set k v d) = lookup k' d.
Proof. intros Hn. rewrite lookup_set. destruct (eqb_spec k' k); [contradiction|reflexivity]. Qed.
Lemma keys_set k v d :
  keys (set k v d) = if has k d then keys d else keys d ++ [k].
Proof.
  unfold has. induction d as [|[k0 v0] d IH]; simpl; [reflexivity|].
  destruct (eqb_spec k k0) as [->|Hne]; simpl; [reflexivity|].
  unfold keys in *. rewrite IH. destruct (lookup k d); reflexivity.
Qed.
Lemma wf_set k v d : wf d -> wf (set k v d).
Proof.
  unfold wf. rewrite keys_set. destruct (has k d) eqn:E; [auto|].
  apply has_false in E. intros Hn.
  apply (Permutation_NoDup (l := k :: keys d)).
  - apply Permutation_cons_append.
  - constructor; auto.
Qed.
Lemma set_new k v d : has k d = false -> set k v d = d ++ [(k, v)].
Proof.
  unfold has. induction d as [|[k0 v0] d IH]; simpl; [reflexivity|].
  destruct (eqb_spec k k0); [discriminate|]. intros E. rewrite IH; auto.
Qed.
Lemma set_same k v d : lookup k d = Some v -> set k v d = d.
Proof.
  induction d as [|[k0 v0] d IH]; simpl; [discriminate|].
  destruct (eqb_spec k k0) as [->|]; [intros [= ->]; reflexivity|].
  intros E. rewrite IH; auto.
Qed.
Lemma lookup_remove k d k' :
  wf d -> lookup k' (remove k d) = if eqb k' k then None else lookup k' d.
Proof.
  unfold wf, keys. induction d as [|[k0 v0] d IH]; simpl; intros Hnd.
  - destruct (eqb k' k); reflexivity.
  - apply NoDup_cons_iff in Hnd as [Hni Hnd']. destruct (eqb_spec k k0) as [E|Hne].
    + rewrite <- E in *. clear E. clear IH. destruct (eqb_spec k' k) as [E'|]; [|reflexivity].
      rewrite E'. apply lookup_None. exact Hni.
    + simpl. destruct (eqb_spec k' k0) as [E'|].
      * subst k'. destruct (eqb_spec k0 k); [congruence|reflexivity].
      * auto.
Qed.
Lemma keys_remove_incl k d : incl (keys (remove k d)) (keys d).
Proof.
  induction d as [|[k0 v0] d IH]; simpl; intros x Hx; [exact Hx|].
  destruct (eqb k k0); simpl in *; [auto|]. destruct Hx; [auto|right; apply IH; auto].
Qed.
Lemma wf_remove k d : wf d -> wf (remove k d).
Proof.
  unfold wf, keys. induction d as [|[k0 v0] d IH]; simpl; intros Hnd; [exact Hnd|].
  inversion Hnd as [|? ? Hni Hnd']; subst. destruct (eqb k k0); [auto|].
  simpl. constructor; [|auto]. intros Hin. apply Hni. apply (keys_remove_incl k d). exact Hin.
Qed.
Lemma wf_update d l : wf d -> wf (update d l).
Proof.
  unfold update. revert d. induction l as [|[k v] l IH]; simpl; intros d Hd; [exact Hd|].
  apply IH. apply wf_set. exact Hd.
Qed.
Lemma update_app d l1 l2 : update d (l1 ++ l2) = update (update d l1) l2.
Proof. unfold update. apply fold_left_app. Qed.
Lemma lookup_update d l k :
  lookup k (update d l) = match lookup k (rev l) with Some v => Some v | None => lookup k d end.
Proof.
  revert d. induction l as [|[k0 v0] l IH] using rev_ind; intros d; [reflexivity|].
  rewrite update_app. unfold update at 1. simpl. rewrite lookup_set, rev_app_distr. simpl.
  destruct (eqb k k0); [reflexivity|]. apply IH.
Qed.
Lemma wf_nil : wf (@nil (K * V)).
Proof. constructor. Qed.
Lemma update_new (l : dict K V) : wf l -> forall d, (forall k, In k (keys l) -> ~ In k (keys d)) ->
  update d l = d ++ l.
Proof.
  unfold update. induction l as [|[k v] l IH]; intros Hl d Hd; simpl.
  - symmetry. apply app_nil_r.
  - inversion Hl as [|? ? Hni Hnd]; subst. rewrite set_new.
    + rewrite IH.
      * rewrite <- app_assoc. reflexivity.
      * exact Hnd.
      * intros k' Hk'. unfold keys. rewrite map_app, in_app_iff. simpl.
        intros [H1|[H1|[]]].
        -- apply (Hd k'); [right; exact Hk'|exact H1].
        -- subst. contradiction.
    + apply has_false. apply Hd. left. reflexivity.
Qed.
Lemma update_nil_wf (l : dict K V) : wf l -> update nil l = l.
Proof. intros Hl. rewrite update_new; auto. Qed.
End DictFacts.

(** Lemmas about attributes. *)
From Coq Require Import List Bool Arith Lia NArith Sorted Permutation.
From Verif.Base Require Import Str StrFacts ListFacts Dict DictFacts Sort SortFacts Result.
From Verif.Model Require Import ListUtils Attributes.
From Verif.Proof Require Import ListUtils.
From Verif.Spec Require Import Attributes.
Import ListNotations.

(** ** Terminators *)
Lemma known_target_In t : known_target t <-> In t targets.
Proof. unfold known_target, targets. simpl. intuition congruence. Qed.
Lemma known_no_dot t : known_target t -> ~ In 46%N t.
Proof.
  intros [->|[->|[->| ->]]]; cbn; intuition discriminate.
Qed.
Lemma known_bare t : known_target t -> bare_target t.
Proof. apply known_no_dot. Qed.

Lemma last_dot_inj (p q t u : str) :
  ~ In 46%N t -> ~ In 46%N u -> p ++ 46%N :: t = q ++ 46%N :: u -> p = q /\ t = u.
Proof.
  revert q. induction p as [|x p IH]; intros [|y q] Ht Hu E; simpl in E.
  - injection E as ->. auto.
  - injection E as <- E. exfalso. apply Ht. rewrite E. apply in_app_iff. right. left. reflexivity.
  - injection E as -> E. exfalso. apply Hu. rewrite <- E. apply in_app_iff. right. left. reflexivity.
  - injection E as -> E. destruct (IH q Ht Hu E) as [-> ->]. auto.
Qed.
Lemma for_target_inj p q t u :
  bare_target t -> bare_target u -> for_target p t = for_target q u -> p = q /\ t = u.
Proof. unfold for_target. intros Ht Hu. apply last_dot_inj; assumption. Qed.

Lemma strip_targets_spec ts p t :
  (forall u, In u ts -> ~ In 46%N u) -> In t ts ->
  strip_targets ts (for_target p t) = p.
Proof.
  intros Hd. induction ts as [|u ts IH]; simpl; [tauto|]. intros Hin.
  destruct (endswith (for_target p t) (46%N :: u)) eqn:E.
  - apply endswith_iff in E as [q Eq].
    assert (Ht : ~ In 46%N t).
    { destruct Hin as [<-|Hin]; apply Hd; simpl; auto. }
    destruct (for_target_inj p q t u Ht (Hd u (or_introl eq_refl)) Eq) as [-> ->].
    rewrite Eq. apply (drop_last_app q (46%N :: u)).
  - destruct Hin as [->|Hin].
    + exfalso. assert (endswith (for_target p t) (46%N :: t) = true); [|congruence].
      apply endswith_iff. exists p. reflexivity.
    + apply IH; [|exact Hin]. intros v Hv. apply Hd. right. exact Hv.
Qed.
Lemma strip_targets_none ts k :
  (forall p t, In t ts -> k <> for_target p t) -> strip_targets ts k = k.
Proof.
  induction ts as [|u ts IH]; simpl; intros Hn; [reflexivity|].
  destruct (endswith k (46%N :: u)) eqn:E.
  - apply endswith_iff in E as [q Eq]. exfalso. apply (Hn q u); auto.
  - apply IH. intros p t Hin. apply Hn. right. exact Hin.
Qed.
Lemma strip_attr_for_target p t : known_target t -> strip_attr (for_target p t) = p.
Proof.
  intros Hk. unfold strip_attr.
  assert (E : contains (for_target p t) sep = true).
  { apply contains_iff. exists p, t. reflexivity. }
  rewrite E. apply strip_targets_spec; [|apply known_target_In; exact Hk].
  intros u Hu. apply known_no_dot, known_target_In. exact Hu.
Qed.
Lemma strip_attr_plain k : plain k -> strip_attr k = k.
Proof.
  intros Hp. unfold strip_attr. destruct (contains k sep); [|reflexivity].
  apply strip_targets_none. intros p t Ht. apply Hp. apply known_target_In. exact Ht.
Qed.
Lemma plain_dec k : plain k \/ exists p t, known_target t /\ k = for_target p t.
Proof.
  assert (G : forall ts, (forall p t, In t ts -> k <> for_target p t) \/
            exists p t, In t ts /\ k = for_target p t).
  { induction ts as [|u ts IH]; [left; simpl; tauto|].
    destruct (endswith k (46%N :: u)) eqn:E.
    - apply endswith_iff in E as [q ->]. right. exists q, u. simpl. auto.
    - destruct IH as [IH|(p & t & Ht & ->)].
      + left. intros p t [<-|Ht]; [|auto]. intros ->.
        assert (endswith (for_target p u) (46%N :: u) = true); [|congruence].
        apply endswith_iff. exists p. reflexivity.
      + right. exists p, t. simpl. auto. }
  destruct (G targets) as [H|(p & t & Ht & ->)].
  - left. intros p t Ht. apply H. apply known_target_In. exact Ht.
  - right. exists p, t. split; [apply known_target_In; exact Ht|reflexivity].
Qed.
Lemma for_target_neq p t : for_target p t <> p.
Proof.
  intros E. apply (f_equal (@length _)) in E. unfold for_target in E.
  rewrite app_length in E. simpl in E. lia.
Qed.
Lemma its_plain k : is_target_specific k = false <-> plain k.
Proof.
  unfold is_target_specific. destruct (plain_dec k) as [Hp|(p & t & Hk & ->)].
  - rewrite strip_attr_plain by exact Hp. rewrite eqb_refl. simpl. tauto.
  - rewrite strip_attr_for_target by exact Hk. split.
    + intros E. apply negb_false_iff, eqb_eq in E. exfalso. apply (for_target_neq p t). exact E.
    + intros Hp. exfalso. apply (Hp p t Hk). reflexivity.
Qed.
Lemma its_specific k : is_target_specific k = true <-> exists p t, known_target t /\ k = for_target p t.
Proof.
  destruct (plain_dec k) as [Hp|(p & t & Hk & E)].
  - pose proof (proj2 (its_plain k) Hp) as E. rewrite E. split; [discriminate|].
    intros (p & t & Hk & ->). exfalso. apply (Hp p t Hk). reflexivity.
  - split; [eauto|]. intros _. destruct (is_target_specific k) eqn:E'; [reflexivity|].
    apply its_plain in E'. exfalso. apply (E' p t Hk). exact E.
Qed.

Lemma strip_val_clean v : clean_value v -> strip_val v = v.
Proof. destruct v; simpl; try reflexivity. intros Hp. rewrite strip_attr_plain; auto. Qed.

(** ** Targets with dots *)
Lemma forallb_repeat {A} (f : A -> bool) x n : f x = true -> forallb f (repeat x n) = true.
Proof. intros E. induction n; simpl; [reflexivity|]. rewrite E. exact IHn. Qed.
Lemma bare_stripped t : bare_target t -> stripped (N.eqb 46) t.
Proof.
  intros Hb. split; intros c r ->; apply N.eqb_neq; intros <-; apply Hb.
  - left. reflexivity.
  - apply in_app_iff. right. left. reflexivity.
Qed.
Lemma norm_target_dots n m t : bare_target t ->
  norm_target (Some (dots n ++ t ++ dots m)) = Some t.
Proof.
  intros Hb. unfold norm_target, strip_c. f_equal. apply strip_p_unique.
  - apply forallb_repeat. reflexivity.
  - apply forallb_repeat. reflexivity.
  - apply bare_stripped. exact Hb.
Qed.
Lemma norm_target_bare t : bare_target t -> norm_target (Some t) = Some t.
Proof.
  intros Hb. pose proof (norm_target_dots 0 0 t Hb) as E. simpl in E.
  rewrite app_nil_r in E. exact E.
Qed.
Lemma norm_target_idem t : norm_target (norm_target t) = norm_target t.
Proof. destruct t; simpl; [|reflexivity]. unfold strip_c. rewrite strip_p_idem. reflexivity. Qed.

(** ** find_item *)
Definition find_key (d : attrs) (t : option str) (k : str) : option (str * aval) :=
  match t with
  | Some t =>
      match lookup (for_target k t) d with
      | Some v => Some (for_target k t, v)
      | None => match lookup k d with Some v => Some (k, v) | None => None end
      end
  | None => match lookup k d with Some v => Some (k, v) | None => None end
  end.
Lemma find_item_key d k t : find_item d (RKey k) t = find_key d (norm_target t) k.
Proof.
  unfold find_item, find_key. destruct (norm_target t) as [u|]; [|reflexivity].
  change (join sep [areq_str (RKey k); u]) with (for_target k u).
  destruct (lookup (for_target k u) d); reflexivity.
Qed.
Lemma find_key_pick d t k :
  pick d t k = match find_key d t k with Some (_, v) => Some v | None => None end.
Proof.
  unfold pick, find_key. destruct t as [u|].
  - destruct (lookup (for_target k u) d); [reflexivity|]. destruct (lookup k d); reflexivity.
  - destruct (lookup k d); reflexivity.
Qed.
Lemma find_item_norm d a t : find_item d a (norm_target t) = find_item d a t.
Proof. unfold find_item. rewrite norm_target_idem. reflexivity. Qed.

Lemma find_item_sound d a t k v : wf d ->
  find_item d a t = Some (k, v) ->
  lookup k d = Some v /\ requested d (norm_target t) a k.
Proof.
  intros Hwf. unfold find_item. intros E.
  set (bt := match norm_target t with Some _ => _ | None => None end) in E.
  destruct bt as [[k1 v1]|] eqn:Eb.
  - injection E as <- <-. unfold bt in Eb. destruct (norm_target t) as [u|]; [|discriminate].
    destruct (lookup (join sep [areq_str a; u]) d) as [v'|] eqn:El; [|discriminate].
    injection Eb as <- <-. split; [exact El|].
    destruct a as [k0|p]; simpl; right; exists u; split; reflexivity.
  - destruct a as [k0|p].
    + destruct (lookup k0 d) as [v'|] eqn:El; [|discriminate]. injection E as <- <-.
      split; [exact El|]. left. reflexivity.
    + set (items := filter _ d) in E.
      assert (Hit : forall kv, In kv items -> lookup (fst kv) d = Some (snd kv) /\
                exists q, snd kv = VPos q /\ (p = PAny \/ p = q)).
      { intros [k' v'] Hin. apply filter_In in Hin as [Hin Hs]. simpl in *.
        split; [apply In_lookup; assumption|].
        destruct v' as [|q|]; try discriminate. exists q. split; [reflexivity|].
        destruct p, q; simpl in Hs; try discriminate; auto. }
      set (ti := match norm_target t with Some _ => _ | None => _ end) in E.
      assert (Hti : forall kv, In kv ti -> In kv items).
      { unfold ti. destruct (norm_target t) as [[|c u]|]; intros kv Hkv;
          apply filter_In in Hkv; tauto. }
      assert (Hin : In (k, v) items).
      { destruct ti as [|kv ti']; [destruct items as [|kv items']; [discriminate|]|].
        - injection E as ->. left. reflexivity.
        - injection E as ->. apply Hti. left. reflexivity. }
      destruct (Hit _ Hin) as [H1 (q & H2 & H3)]. simpl in *. subst v.
      split; [exact H1|]. left. exists q. auto.
Qed.

(** ** Stable sort by the position in a list *)
Lemma index_of_lt {A} `{EqDec A} (k : A) l : In k l -> index_of k l < length l.
Proof.
  induction l as [|x l IH]; simpl; [tauto|]. intros Hin.
  destruct (eqb_spec k x) as [->|Hne]; [lia|].
  destruct Hin as [->|Hin]; [congruence|]. specialize (IH Hin). lia.
Qed.
Lemma index_of_missing {A} `{EqDec A} (k : A) l : ~ In k l -> index_of k l = length l.
Proof.
  induction l as [|x l IH]; simpl; [reflexivity|]. intros Hn.
  destruct (eqb_spec k x) as [->|Hne]; [tauto|]. rewrite IH by tauto. reflexivity.
Qed.
Lemma index_of_inj {A} `{EqDec A} (k k' : A) l :
  In k l -> index_of k l = index_of k' l -> k = k'.
Proof.
  induction l as [|x l IH]; simpl; [tauto|]. intros Hin E.
  destruct (eqb_spec k x) as [->|Hne]; destruct (eqb_spec k' x) as [->|Hne']; try congruence.
  destruct Hin as [->|Hin]; [congruence|]. apply IH; [exact Hin|congruence].
Qed.
Lemma index_of_map {A B} `{EqDec A} `{EqDec B} (f : A -> B) (k : A) l :
  (forall x y, f x = f y -> x = y) -> index_of (f k) (map f l) = index_of k l.
Proof.
  intros Hf. induction l as [|x l IH]; simpl; [reflexivity|].
  destruct (eqb_spec (f k) (f x)) as [E|Hne]; destruct (eqb_spec k x) as [E'|Hne']; auto.
  - apply Hf in E. contradiction.
  - subst. contradiction.
Qed.

Lemma sorted_filters_eq {A} (key : A -> nat) l1 : forall l2,
  StronglySorted (fun x y => key x <= key y) l1 ->
  StronglySorted (fun x y => key x <= key y) l2 ->
  (forall n, filter (fun x => key x =? n) l1 = filter (fun x => key x =? n) l2) ->
  l1 = l2.
Proof.
  induction l1 as [|x l1 IH]; intros [|y l2] S1 S2 Hf.
  - reflexivity.
  - specialize (Hf (key y)). simpl in Hf. rewrite Nat.eqb_refl in Hf. discriminate.
  - specialize (Hf (key x)). simpl in Hf. rewrite Nat.eqb_refl in Hf. discriminate.
  - inversion S1 as [|? ? S1' F1]; subst. inversion S2 as [|? ? S2' F2]; subst.
    rewrite Forall_forall in F1, F2.
    assert (E : key x = key y).
    { destruct (Nat.lt_trichotomy (key x) (key y)) as [L|[L|L]]; [|exact L|].
      - specialize (Hf (key x)). simpl in Hf. rewrite Nat.eqb_refl in Hf.
        destruct (Nat.eqb_spec (key y) (key x)); [lia|].
        assert (Hin : In x (filter (fun z => key z =? key x) l2)) by (rewrite <- Hf; left; reflexivity).
        apply filter_In in Hin as [Hin _]. specialize (F2 x Hin). lia.
      - specialize (Hf (key y)). simpl in Hf. rewrite Nat.eqb_refl in Hf.
        destruct (Nat.eqb_spec (key x) (key y)); [lia|].
        assert (Hin : In y (filter (fun z => key z =? key y) l1)) by (rewrite Hf; left; reflexivity).
        apply filter_In in Hin as [Hin _]. specialize (F1 y Hin). lia. }
    pose proof (Hf (key x)) as H0. simpl in H0. rewrite Nat.eqb_refl, <- E, Nat.eqb_refl in H0.
    injection H0 as -> _. f_equal. apply IH; auto.
    intros n. specialize (Hf n). simpl in Hf. destruct (key y =? n); [injection Hf as Hf|]; exact Hf.
Qed.
Lemma sort_by_unique {A} (key : A -> nat) l l' :
  StronglySorted (fun x y => key x <= key y) l' ->
  (forall n, filter (fun x => key x =? n) l' = filter (fun x => key x =? n) l) ->
  sort_by key l = l'.
Proof.
  intros S Hf. apply (sorted_filters_eq key); [apply sort_by_sorted|exact S|].
  intros n. rewrite sort_by_stable. symmetry. apply Hf.
Qed.

(** Sorting distinct elements by their position in a list without duplicates *)
Lemma StronglySorted_app {A} (R : A -> A -> Prop) l1 l2 :
  StronglySorted R l1 -> StronglySorted R l2 ->
  (forall x y, In x l1 -> In y l2 -> R x y) -> StronglySorted R (l1 ++ l2).
Proof.
  induction l1 as [|x l1 IH]; intros S1 S2 Hc; simpl; [exact S2|].
  inversion S1 as [|? ? S1' F1]; subst. constructor.
  - apply IH; auto. intros a b Ha Hb. apply Hc; [right; exact Ha|exact Hb].
  - rewrite Forall_forall in *. intros b Hb. apply in_app_iff in Hb as [Hb|Hb]; [auto|].
    apply Hc; [left; reflexivity|exact Hb].
Qed.
Lemma filter_sorted {A} (R : A -> A -> Prop) f l :
  StronglySorted R l -> StronglySorted R (filter f l).
Proof.
  induction 1 as [|x l Hs IH Hf]; simpl; [constructor|].
  destruct (f x); [|exact IH]. constructor; [exact IH|].
  rewrite Forall_forall in *. intros y Hy. apply filter_In in Hy as [Hy _]. auto.
Qed.
Lemma index_sorted {A} `{EqDec A} (l : list A) : NoDup l ->
  StronglySorted (fun x y => index_of x l <= index_of y l) l.
Proof.
  induction l as [|x l IH]; intros Hnd; [constructor|].
  apply NoDup_cons_iff in Hnd as [Hni Hnd]. constructor.
  - specialize (IH Hnd).
    assert (G : forall m, incl m l -> StronglySorted (fun a b => index_of a l <= index_of b l) m ->
       StronglySorted (fun a b => index_of a (x :: l) <= index_of b (x :: l)) m).
    { clear IH. induction m as [|a m IHm]; intros Hm Hs; [constructor|].
      inversion Hs as [|? ? Hs' Hf]; subst. constructor.
      - apply IHm; [|exact Hs']. intros z Hz. apply Hm. right. exact Hz.
      - rewrite Forall_forall in *. intros b Hb. simpl.
        destruct (eqb_spec a x); [lia|]. destruct (eqb_spec b x) as [->|].
        + exfalso. apply Hni. apply Hm. right. exact Hb.
        + specialize (Hf b Hb). lia. }
    apply G; [apply incl_refl|exact IH].
  - rewrite Forall_forall. intros y Hy. simpl. rewrite eqb_refl. lia.
Qed.
Lemma filter_NoDup_eq {A} `{EqDec A} (f : A -> bool) x l :
  NoDup l -> (forall y, In y l -> f y = true <-> y = x) ->
  filter f l = if mem x l then [x] else [].
Proof.
  induction l as [|y l IH]; intros Hnd Hf; [reflexivity|].
  apply NoDup_cons_iff in Hnd as [Hni Hnd]. simpl.
  assert (IH' : filter f l = if mem x l then [x] else []).
  { apply IH; [exact Hnd|]. intros z Hz. apply Hf. right. exact Hz. }
  destruct (eqb_spec x y) as [->|Hne]; simpl.
  - rewrite (proj2 (Hf y (or_introl eq_refl)) eq_refl). rewrite IH'.
    destruct (mem y l) eqn:Em; [apply mem_In in Em; contradiction|reflexivity].
  - destruct (f y) eqn:Ef; [|exact IH'].
    apply (Hf y (or_introl eq_refl)) in Ef. congruence.
Qed.
Lemma sort_by_index {A} `{EqDec A} (ord l : list A) : NoDup ord -> NoDup l ->
  sort_by (fun a => index_of a ord) l =
  filter (fun a => mem a l) ord ++ filter (fun a => negb (mem a ord)) l.
Proof.
  intros Ho Hl. apply sort_by_unique.
  - apply StronglySorted_app.
    + apply filter_sorted. apply index_sorted. exact Ho.
    + assert (G : forall m, (forall a, In a m -> index_of a ord = length ord) ->
         StronglySorted (fun x y => index_of x ord <= index_of y ord) m).
      { induction m as [|a m IH]; intros Hm; constructor.
        - apply IH. intros b Hb. apply Hm. right. exact Hb.
        - rewrite Forall_forall. intros b Hb. rewrite (Hm a), (Hm b); simpl; auto. }
      apply G. intros a Ha. apply filter_In in Ha as [_ Ha]. apply index_of_missing.
      apply negb_true_iff in Ha. apply mem_not_In in Ha. exact Ha.
    + intros x y Hx Hy. apply filter_In in Hx as [Hx _]. apply filter_In in Hy as [_ Hy].
      apply negb_true_iff, mem_not_In in Hy. rewrite (index_of_missing y) by exact Hy.
      apply index_of_lt in Hx. lia.
  - intros n. rewrite filter_app.
    destruct (lt_dec n (length ord)) as [Hn|Hn].
    + destruct (nth_error ord n) as [x|] eqn:En; [|apply nth_error_None in En; lia].
      assert (Hx : In x ord) by (eapply nth_error_In; eauto).
      assert (Ei : index_of x ord = n).
      { clear - En Ho. revert n En. induction ord as [|y ord IH]; intros [|n] En; try discriminate.
        - injection En as ->. simpl. rewrite eqb_refl. reflexivity.
        - simpl in *. apply NoDup_cons_iff in Ho as [Hni Ho]. destruct (eqb_spec x y) as [->|].
          + exfalso. apply Hni. eapply nth_error_In; eauto.
          + rewrite (IH Ho n En). reflexivity. }
      assert (E2 : filter (fun y => index_of y ord =? n) (filter (fun a => negb (mem a ord)) l) = []).
      { destruct (filter _ (filter _ l)) as [|z r] eqn:Ef; [reflexivity|].
        assert (Hz : In z (z :: r)) by (left; reflexivity). rewrite <- Ef in Hz.
        apply filter_In in Hz as [Hz Hz']. apply filter_In in Hz as [_ Hz].
        apply negb_true_iff, mem_not_In in Hz. apply index_of_missing in Hz.
        apply Nat.eqb_eq in Hz'. lia. }
      rewrite E2, app_nil_r.
      rewrite (filter_NoDup_eq _ x (filter _ ord)).
      * rewrite (filter_NoDup_eq _ x l).
        -- replace (mem x (filter (fun a => mem a l) ord)) with (mem x l); [reflexivity|].
           apply eq_true_iff_eq. rewrite !mem_In, filter_In, mem_In. tauto.
        -- exact Hl.
        -- intros y _. rewrite Nat.eqb_eq. rewrite <- Ei. split; [|intros ->; reflexivity].
           intros E. symmetry in E. symmetry. apply (index_of_inj x y ord Hx E).
      * apply NoDup_filter. exact Ho.
      * intros y _. rewrite Nat.eqb_eq. rewrite <- Ei. split; [|intros ->; reflexivity].
        intros E. symmetry in E. symmetry. apply (index_of_inj x y ord Hx E).
    + assert (E1 : filter (fun y => index_of y ord =? n) (filter (fun a => mem a l) ord) = []).
      { destruct (filter _ (filter _ ord)) as [|z r] eqn:Ef; [reflexivity|].
        assert (Hz : In z (z :: r)) by (left; reflexivity). rewrite <- Ef in Hz.
        apply filter_In in Hz as [Hz Hz']. apply filter_In in Hz as [Hz _].
        apply index_of_lt in Hz. apply Nat.eqb_eq in Hz'. lia. }
      rewrite E1. simpl. clear E1.
      induction l as [|a l IH]; [reflexivity|]. apply NoDup_cons_iff in Hl as [Hni Hl].
      simpl. destruct (mem a ord) eqn:Em; simpl.
      * apply mem_In in Em. apply index_of_lt in Em.
        destruct (Nat.eqb_spec (index_of a ord) n); [lia|]. auto.
      * destruct (index_of a ord =? n); [f_equal|]; auto.
Qed.

(** ** filter *)
(** collecting the found items *)
Definition collect (d : attrs) (t : option str) (reqs : list areq) (acc : attrs) : attrs :=
  fold_left (fun acc a => match find_item d a t with
                          | Some (k, v) => set k v acc
                          | None => acc
                          end) reqs acc.
Lemma collect_wf d t reqs acc : wf acc -> wf (collect d t reqs acc).
Proof.
  revert acc. induction reqs as [|a reqs IH]; simpl; intros acc Hw; [exact Hw|].
  destruct (find_item d a t) as [[k v]|]; [|auto]. apply IH, wf_set, Hw.
Qed.
Lemma collect_sound d t reqs acc k v : wf d ->
  lookup k (collect d t reqs acc) = Some v ->
  lookup k acc = Some v \/
  (lookup k d = Some v /\ exists a, In a reqs /\ requested d (norm_target t) a k).
Proof.
  intros Hwf. revert acc. induction reqs as [|a reqs IH]; simpl; intros acc E; [auto|].
  destruct (find_item d a t) as [[k' v']|] eqn:Ef.
  - destruct (IH _ E) as [E'|(H1 & b & H2 & H3)].
    + rewrite lookup_set in E'. destruct (eqb_spec k k') as [->|Hne]; [|auto].
      injection E' as <-. apply find_item_sound in Ef as [H1 H2]; [|exact Hwf].
      right. split; [exact H1|]. exists a. auto.
    + right. split; [exact H1|]. exists b. auto.
  - destruct (IH _ E) as [E'|(H1 & b & H2 & H3)]; [auto|].
    right. split; [exact H1|]. exists b. auto.
Qed.

(** the key under which the entry for [k] is found *)
Definition found_key (d : attrs) (t : option str) (k : str) : str :=
  match t with
  | Some t => match lookup (for_target k t) d with Some _ => for_target k t | None => k end
  | None => k
  end.
Lemma find_key_eq d t k :
  find_key d t k = match pick d t k with Some v => Some (found_key d t k, v) | None => None end.
Proof.
  unfold find_key, pick, found_key. destruct t as [u|].
  - destruct (lookup (for_target k u) d); [reflexivity|]. destruct (lookup k d); reflexivity.
  - destruct (lookup k d); reflexivity.
Qed.
Definition raw_expected (d : attrs) (t : option str) (ks : list str) : attrs :=
  flat_map (fun k => match pick d t k with Some v => [(found_key d t k, v)] | None => [] end) ks.

Lemma found_key_inj d t ks : (forall u, t = Some u -> bare_target u) ->
  (forall k u, In k ks -> t = Some u -> forall p, k <> for_target p u) ->
  forall a b, In a ks -> In b ks -> found_key d t a = found_key d t b -> a = b.
Proof.
  intros Hb Hp a b Ha Hb'. unfold found_key. destruct t as [u|]; [|auto].
  specialize (Hb u eq_refl).
  destruct (lookup (for_target a u) d); destruct (lookup (for_target b u) d); intros E.
  - apply for_target_inj in E; tauto.
  - exfalso. apply (Hp b u Hb' eq_refl a). symmetry. exact E.
  - exfalso. apply (Hp a u Ha eq_refl b). exact E.
  - exact E.
Qed.
Lemma raw_expected_keys d t ks k : In k (keys (raw_expected d t ks)) ->
  exists a, In a ks /\ k = found_key d t a.
Proof.
  unfold raw_expected, keys. induction ks as [|a ks IH]; simpl; [tauto|].
  rewrite map_app, in_app_iff. intros [Hk|Hk].
  - destruct (pick d t a); simpl in Hk; [|tauto]. destruct Hk as [<-|[]]. eauto.
  - destruct (IH Hk) as (b & Hb & ->). eauto.
Qed.
Lemma raw_expected_wf d t ks : NoDup ks ->
  (forall a b, In a ks -> In b ks -> found_key d t a = found_key d t b -> a = b) ->
  wf (raw_expected d t ks).
Proof.
  induction ks as [|a ks IH]; intros Hnd Hi; [constructor|].
  apply NoDup_cons_iff in Hnd as [Hni Hnd]. unfold raw_expected, wf, keys. simpl.
  rewrite map_app. assert (IH' : wf (raw_expected d t ks)).
  { apply IH; [exact Hnd|]. intros x y Hx Hy. apply Hi; right; assumption. }
  destruct (pick d t a) as [v|]; simpl; [|exact IH'].
  constructor; [|exact IH']. intros Hin. apply raw_expected_keys in Hin as (b & Hb & E).
  apply Hi in E; [|left; reflexivity|right; exact Hb]. subst. contradiction.
Qed.
Lemma collect_expected d t ks acc : norm_target t = t ->
  wf acc -> wf (acc ++ raw_expected d t ks) ->
  collect d t (map RKey ks) acc = acc ++ raw_expected d t ks.
Proof.
  intros Ht. revert acc. induction ks as [|a ks IH]; intros acc Hw Hw2; simpl.
  - unfold raw_expected. simpl. rewrite app_nil_r. reflexivity.
  - rewrite find_item_key, Ht, find_key_eq. unfold raw_expected in *. simpl in *.
    destruct (pick d t a) as [v|]; simpl in *; [|apply IH; assumption].
    rewrite set_new.
    + rewrite IH.
      * rewrite <- app_assoc. reflexivity.
      * unfold wf, keys in *. rewrite map_app in *. simpl in *.
        replace (map fst acc ++ found_key d t a :: map fst (flat_map (fun k : str =>
          match pick d t k with Some v => [(found_key d t k, v)] | None => [] end) ks))
        with ((map fst acc ++ [found_key d t a]) ++ map fst (flat_map (fun k : str =>
          match pick d t k with Some v => [(found_key d t k, v)] | None => [] end) ks))
        in Hw2 by (rewrite <- app_assoc; reflexivity).
        apply NoDup_app_iff in Hw2. tauto.
      * rewrite <- app_assoc. exact Hw2.
    + apply has_false. unfold wf, keys in *. rewrite map_app in Hw2. simpl in Hw2.
      apply NoDup_remove_2 in Hw2. rewrite in_app_iff in Hw2. tauto.
Qed.

(** stripping a dictionary whose stripped keys are all different *)
Lemma strip_attrs_ok d : wf d -> ~ In (lit "self") (keys d) ->
  (forall k, In k (keys d) -> plain (strip_attr k)) ->
  NoDup (map strip_attr (keys d)) ->
  strip_attrs d = Ok (map (fun kv => (strip_attr (fst kv), snd kv)) d).
Proof.
  intros Hw Hself Hpl Hnd. unfold strip_attrs, copy.
  rewrite (proj2 (has_false (lit "self") d) Hself). cbn [bind].
  assert (Hinj : forall a b, In a (keys d) -> In b (keys d) -> strip_attr a = strip_attr b -> a = b).
  { clear - Hnd. induction (keys d) as [|x l IH]; simpl; [tauto|].
    simpl in Hnd. apply NoDup_cons_iff in Hnd as [Hni Hnd].
    intros a b [<-|Ha] [<-|Hb] E; auto.
    - exfalso. apply Hni. rewrite E. apply in_map. exact Hb.
    - exfalso. apply Hni. rewrite <- E. apply in_map. exact Ha. }
  assert (G : forall l, incl l (keys d) ->
     filter (fun k => negb (mem k (map strip_attr (filter is_target_specific (keys d))))) l = l).
  { induction l as [|k l IH]; intros Hin; [reflexivity|]. simpl.
    replace (mem k (map strip_attr (filter is_target_specific (keys d)))) with false.
    - simpl. f_equal. apply IH. intros z Hz. apply Hin. right. exact Hz.
    - symmetry. apply mem_not_In. intros Hm. apply in_map_iff in Hm as (k' & E' & Hk').
      apply filter_In in Hk' as [Hk' Hs].
      assert (Hp : plain k) by (rewrite <- E'; apply Hpl; exact Hk').
      apply its_specific in Hs as (p & t & Ht & ->).
      rewrite strip_attr_for_target in E' by exact Ht. subst p.
      apply (for_target_neq k t). apply Hinj; auto.
      + apply Hin. left. reflexivity.
      + rewrite strip_attr_for_target, strip_attr_plain; auto. }
  rewrite (G (keys d) (incl_refl _)). clear G. f_equal.
  assert (G : forall l acc, (forall k v, In (k, v) l -> lookup k d = Some v) ->
     NoDup (keys acc ++ map strip_attr (map fst l)) ->
     fold_left (fun acc key => match lookup key d with Some v => set (strip_attr key) v acc | None => acc end)
       (map fst l) acc = acc ++ map (fun kv => (strip_attr (fst kv), snd kv)) l).
  { induction l as [|[k v] l IH]; intros acc Hl Hn; simpl.
    - rewrite app_nil_r. reflexivity.
    - rewrite (Hl k v (or_introl eq_refl)). rewrite set_new.
      + rewrite IH.
        * rewrite <- app_assoc. reflexivity.
        * intros k' v' Hk'. apply Hl. right. exact Hk'.
        * unfold keys in *. rewrite map_app. simpl. simpl in Hn. rewrite <- app_assoc. exact Hn.
      + apply has_false. simpl in Hn. apply NoDup_remove_2 in Hn. rewrite in_app_iff in Hn. tauto. }
  unfold keys. rewrite G; [reflexivity| |].
  - intros k v Hin. apply In_lookup; assumption.
  - simpl. exact Hnd.
Qed.

Lemma raw_expected_strip d t ks :
  (forall u, t = Some u -> known_target u) -> Forall plain ks ->
  map (fun kv => (strip_attr (fst kv), snd kv)) (raw_expected d t ks) = expected d t ks.
Proof.
  intros Ht. unfold raw_expected, expected. induction 1 as [|k ks Hk Hks IH]; simpl; [reflexivity|].
  rewrite map_app, IH. f_equal. destruct (pick d t k) as [v|]; simpl; [|reflexivity].
  do 2 f_equal. unfold found_key. destruct t as [u|]; [|apply strip_attr_plain; exact Hk].
  destruct (lookup (for_target k u) d); [apply strip_attr_for_target; apply Ht; reflexivity|].
  apply strip_attr_plain. exact Hk.
Qed.
Lemma expected_keys d t ks : incl (keys (expected d t ks)) ks.
Proof.
  unfold expected, keys. induction ks as [|k ks IH]; intros x Hx; simpl in *; [exact Hx|].
  rewrite map_app, in_app_iff in Hx. destruct Hx as [Hx|Hx]; [|right; apply IH; exact Hx].
  destruct (pick d t k); simpl in Hx; [|tauto]. destruct Hx as [<-|[]]. left. reflexivity.
Qed.
Lemma expected_wf d t ks : NoDup ks -> wf (expected d t ks).
Proof.
  unfold expected, wf, keys. induction ks as [|k ks IH]; simpl; intros Hnd; [constructor|].
  apply NoDup_cons_iff in Hnd as [Hni Hnd]. rewrite map_app.
  destruct (pick d t k); simpl; [|auto]. constructor; [|auto].
  intros Hin. apply Hni. apply (expected_keys d t ks). exact Hin.
Qed.

Lemma filter_removed_plain ks t : Forall plain ks -> filter_removed (map RKey ks) t = [].
Proof.
  intros H. unfold filter_removed. destruct t as [u|].
  - induction H as [|k ks Hk Hks IH]; simpl; [reflexivity|].
    rewrite strip_attr_plain by exact Hk. rewrite eqb_refl. exact IH.
  - induction H as [|k ks Hk Hks IH]; simpl; [reflexivity|].
    rewrite strip_attr_plain by exact Hk. rewrite eqb_refl. exact IH.
Qed.
Lemma RKey_inj x y : RKey x = RKey y -> x = y.
Proof. congruence. Qed.
Lemma mem_map_inj {A B} `{EqDec A} `{EqDec B} (f : A -> B) x l :
  (forall a b, f a = f b -> a = b) -> mem (f x) (map f l) = mem x l.
Proof.
  intros Hf. apply eq_true_iff_eq. rewrite !mem_In, in_map_iff. split.
  - intros (y & E & Hy). apply Hf in E. congruence.
  - intros Hx. eauto.
Qed.
Lemma uv_map_inj {A B} `{EqDec A} `{EqDec B} (f : A -> B) l : (forall a b, f a = f b -> a = b) ->
  forall seen, unique_everseen (fun x => x) (map f seen) (map f l)
  = map f (unique_everseen (fun x => x) seen l).
Proof.
  intros Hf. induction l as [|x l IH]; intros seen; simpl; [reflexivity|].
  rewrite (mem_map_inj f x seen Hf). destruct (mem x seen); [apply IH|].
  simpl. f_equal. apply (IH (x :: seen)).
Qed.
Lemma uniq_map_RKey ks : uniq (map RKey ks) = map RKey (uniq ks).
Proof. unfold uniq, uniq_by. apply (uv_map_inj RKey ks RKey_inj []). Qed.
Lemma uniq_NoDup {A} `{EqDec A} (l : list A) : NoDup (uniq l).
Proof.
  pose proof (uv_NoDup (fun x : A => x) [] l) as Hn. rewrite map_id in Hn. exact Hn.
Qed.
Lemma uniq_In {A} `{EqDec A} (l : list A) x : In x (uniq l) <-> In x l.
Proof.
  split; intros Hx.
  - apply (uv_In (fun x : A => x) [] l) in Hx. tauto.
  - pose proof (uv_key_mem (fun x : A => x) [] l x) as Hk. rewrite !map_id in Hk. apply Hk; simpl; auto.
Qed.
Lemma sort_map_RKey (d : attrs) ks : wf d -> NoDup ks ->
  sort_by (fun a => index_of a (map RKey (keys d))) (map RKey ks) = map RKey (default_order d ks).
Proof.
  intros Hw Hnd. rewrite sort_by_index.
  - unfold default_order. rewrite map_app, !(filter_map_comm RKey). f_equal.
    + f_equal. apply filter_ext. intros k. apply (mem_map_inj RKey k ks RKey_inj).
    + f_equal. apply filter_ext. intros k. f_equal. apply (mem_map_inj RKey k (keys d) RKey_inj).
  - apply FinFun.Injective_map_NoDup; [exact RKey_inj|exact Hw].
  - apply FinFun.Injective_map_NoDup; [exact RKey_inj|exact Hnd].
Qed.
Lemma default_order_In (d : attrs) ks k : In k (default_order d ks) <-> In k ks.
Proof.
  unfold default_order. rewrite in_app_iff, !filter_In, negb_true_iff, mem_In, mem_not_In.
  destruct (mem k (map fst d)) eqn:E.
  - apply mem_In in E. tauto.
  - apply mem_not_In in E. tauto.
Qed.
Lemma default_order_NoDup (d : attrs) ks : wf d -> NoDup ks -> NoDup (default_order d ks).
Proof.
  intros Hw Hnd. unfold default_order.
  assert (G : forall l1 l2 : list str, NoDup l1 -> NoDup l2 -> (forall x, In x l1 -> ~ In x l2) -> NoDup (l1 ++ l2)).
  { induction l1 as [|x l1 IH]; intros l2 H1 H2 H3; simpl; [exact H2|].
    apply NoDup_cons_iff in H1 as [H1 H1']. constructor.
    - rewrite in_app_iff. intros [Hx|Hx]; [contradiction|]. apply (H3 x); simpl; auto.
    - apply IH; auto. intros y Hy. apply H3. right. exact Hy. }
  apply G.
  - apply NoDup_filter. exact Hw.
  - apply NoDup_filter. exact Hnd.
  - intros x Hx Hx'. apply filter_In in Hx as [Hx _]. apply filter_In in Hx' as [_ Hx'].
    apply negb_true_iff, mem_not_In in Hx'. contradiction.
Qed.

(** filter for plain names *)
Lemma filter_names_raw d ks t (sorted : bool) : wf d -> Forall plain ks ->
  (forall u, t = Some u -> known_target u) ->
  let ks' := if sorted then uniq ks else default_order d (uniq ks) in
  filter_attrs d (Some (map RKey ks)) t sorted false = Ok (raw_expected d t ks') /\
  wf (raw_expected d t ks') /\ Forall plain ks' /\ NoDup ks'.
Proof.
  intros Hw Hp Ht ks'.
  assert (Hp' : Forall plain ks').
  { rewrite Forall_forall in *. intros k Hk. apply Hp. unfold ks' in Hk. destruct sorted.
    - apply (proj1 (uniq_In ks k)). exact Hk.
    - apply (proj1 (uniq_In ks k)). apply (default_order_In d (uniq ks) k). exact Hk. }
  assert (Hnd : NoDup ks').
  { unfold ks'. destruct sorted; [apply uniq_NoDup|apply default_order_NoDup; [exact Hw|apply uniq_NoDup]]. }
  assert (Hn : norm_target t = t).
  { destruct t as [u|]; [|reflexivity]. apply norm_target_bare, known_bare, Ht. reflexivity. }
  assert (Hwr : wf (raw_expected d t ks')).
  { apply raw_expected_wf; [exact Hnd|]. apply found_key_inj.
    - intros u ->. apply known_bare, Ht. reflexivity.
    - intros k u Hk -> p. rewrite Forall_forall in Hp'. apply Hp'; [exact Hk|apply Ht; reflexivity]. }
  split; [|auto].
  unfold filter_attrs. rewrite Hn. rewrite uniq_map_RKey.
  replace (if sorted then map RKey (uniq ks) else sort_by _ (map RKey (uniq ks))) with (map RKey ks').
  2:{ unfold ks'. destruct sorted; [reflexivity|]. symmetry. apply sort_map_RKey; [exact Hw|apply uniq_NoDup]. }
  rewrite filter_removed_plain by exact Hp'. simpl.
  assert (Ef : filter (fun _ : areq => true) (map RKey ks') = map RKey ks').
  { clear. induction (map RKey ks') as [|x l IH]; simpl; [reflexivity|]. f_equal. exact IH. }
  rewrite Ef. f_equal. apply (collect_expected d t ks' []); [exact Hn|constructor|exact Hwr].
Qed.
Lemma filter_attrs_strip d r t sorted out :
  filter_attrs d r t sorted false = Ok out -> filter_attrs d r t sorted true = strip_attrs out.
Proof. unfold filter_attrs. intros E. injection E as E. rewrite E. reflexivity. Qed.

(** ** filter without names *)
Lemma subseq_filter {A} (f : A -> bool) l : subseq (filter f l) l.
Proof. induction l as [|x l IH]; simpl; [constructor|]. destruct (f x); constructor; exact IH. Qed.
Lemma subseq_map {A B} (f : A -> B) l1 l2 : subseq l1 l2 -> subseq (map f l1) (map f l2).
Proof. induction 1; simpl; constructor; assumption. Qed.

Lemma mem_filter_removed (d : attrs) t k : bare_target t ->
  mem (RKey k) (filter_removed (map RKey (keys d)) (Some t)) = true <->
  (exists u, known_target u /\ u <> t /\ exists p, k = for_target p u /\ In k (keys d)) \/
  (known_target t /\ In (for_target k t) (keys d)).
Proof.
  intros Hb. rewrite mem_In. unfold filter_removed. rewrite in_flat_map. split.
  - intros (a & Ha & Hin). apply in_map_iff in Ha as (k' & <- & Hk').
    cbn [areq_strip areq_endswith] in Hin.
    destruct (eqb_spec (RKey k') (RKey (strip_attr k'))) as [E|Hne]; [destruct Hin|].
    assert (Hs : is_target_specific k' = true).
    { unfold is_target_specific. apply negb_true_iff, eqb_neq. congruence. }
    apply its_specific in Hs as (p & u & Hu & ->).
    destruct (endswith (for_target p u) (sep ++ t)) eqn:E.
    + apply endswith_iff in E as (q & Eq).
      change (q ++ sep ++ t) with (for_target q t) in Eq.
      apply for_target_inj in Eq as [-> ->]; [|apply known_bare; exact Hu|exact Hb].
      rewrite strip_attr_for_target in Hin by exact Hu.
      destruct Hin as [[= ->]|[]]. right. auto.
    + destruct Hin as [[= <-]|[]]. left. exists u. split; [exact Hu|]. split.
      * intros ->. assert (endswith (for_target p t) (sep ++ t) = true); [|congruence].
        apply endswith_iff. exists p. reflexivity.
      * eauto.
  - intros [(u & Hu & Hne & p & -> & Hin)|(Ht & Hin)].
    + exists (RKey (for_target p u)). split; [apply in_map; exact Hin|].
      cbn [areq_strip areq_endswith]. rewrite strip_attr_for_target by exact Hu.
      destruct (eqb_spec (RKey (for_target p u)) (RKey p)) as [E|_].
      * injection E as E. exfalso. apply (for_target_neq p u). exact E.
      * destruct (endswith (for_target p u) (sep ++ t)) eqn:E; [|left; reflexivity].
        apply endswith_iff in E as (q & Eq).
        change (q ++ sep ++ t) with (for_target q t) in Eq.
        apply for_target_inj in Eq as [_ ->]; [congruence|apply known_bare; exact Hu|exact Hb].
    + exists (RKey (for_target k t)). split; [apply in_map; exact Hin|].
      cbn [areq_strip areq_endswith]. rewrite strip_attr_for_target by exact Ht.
      destruct (eqb_spec (RKey (for_target k t)) (RKey k)) as [E|_].
      * injection E as E. exfalso. apply (for_target_neq k t). exact E.
      * replace (endswith (for_target k t) (sep ++ t)) with true; [left; reflexivity|].
        symmetry. apply endswith_iff. exists k. reflexivity.
Qed.

(** collecting a list of keys that are their own items *)
Lemma collect_self (d : attrs) t (l acc : attrs) : norm_target t = t ->
  (forall k v, In (k, v) l -> find_key d t k = Some (k, v)) -> wf (acc ++ l) ->
  collect d t (map RKey (map fst l)) acc = acc ++ l.
Proof.
  intros Ht. revert acc. induction l as [|[k v] l IH]; intros acc Hl Hw; simpl.
  - rewrite app_nil_r. reflexivity.
  - rewrite find_item_key, Ht, (Hl k v (or_introl eq_refl)). rewrite set_new.
    + rewrite IH.
      * rewrite <- app_assoc. reflexivity.
      * intros k' v' Hk. apply Hl. right. exact Hk.
      * rewrite <- app_assoc. exact Hw.
    + apply has_false. unfold wf, keys in Hw. rewrite map_app in Hw. simpl in Hw.
      apply NoDup_remove_2 in Hw. rewrite in_app_iff in Hw. tauto.
Qed.

Lemma sort_keys_id (d : attrs) : wf d ->
  sort_by (fun a => index_of a (map RKey (keys d))) (map RKey (keys d)) = map RKey (keys d).
Proof.
  intros Hw. rewrite sort_map_RKey by (exact Hw || exact Hw).
  f_equal. unfold default_order. rewrite filter_all, filter_none; [apply app_nil_r| |].
  - intros k Hk. apply negb_false_iff, mem_In. exact Hk.
  - intros k Hk. apply mem_In. exact Hk.
Qed.
Lemma uniq_keys_id (d : attrs) : wf d -> uniq (map RKey (keys d)) = map RKey (keys d).
Proof.
  intros Hw. unfold uniq, uniq_by. apply uv_id.
  - rewrite map_id. apply FinFun.Injective_map_NoDup; [exact RKey_inj|exact Hw].
  - simpl. tauto.
Qed.

Definition kept (d : attrs) (t : option str) : attrs :=
  filter (fun kv => negb (mem (RKey (fst kv)) (filter_removed (map RKey (keys d)) t))) d.

Lemma kept_keys d t :
  filter (fun a => negb (mem a (filter_removed (map RKey (keys d)) t))) (map RKey (keys d))
  = map RKey (map fst (kept d t)).
Proof. unfold kept, keys. rewrite !filter_map_comm. reflexivity. Qed.

Lemma filter_all_keys_raw d t sorted : wf d -> known_target t ->
  (forall k, In k (keys d) -> plain (strip_attr k)) ->
  filter_attrs d None (Some t) sorted false = Ok (kept d (Some t)).
Proof.
  intros Hw Ht Hpl. unfold filter_attrs. rewrite norm_target_bare by (apply known_bare; exact Ht).
  rewrite uniq_keys_id by exact Hw.
  replace (if sorted then map RKey (keys d) else _) with (map RKey (keys d))
    by (destruct sorted; [reflexivity|symmetry; apply sort_keys_id; exact Hw]).
  rewrite kept_keys. f_equal.
  apply (collect_self d (Some t) (kept d (Some t)) []).
  - apply norm_target_bare, known_bare, Ht.
  - intros k v Hin. unfold kept in Hin. apply filter_In in Hin as [Hin Hr]. cbn [fst] in Hr.
    apply negb_true_iff in Hr.
    assert (Hnr : ~ (known_target t /\ In (for_target k t) (keys d))).
    { intros Hx. assert (mem (RKey k) (filter_removed (map RKey (keys d)) (Some t)) = true); [|congruence].
      apply mem_filter_removed; [apply known_bare; exact Ht|]. right. exact Hx. }
    unfold find_key. destruct (lookup (for_target k t) d) eqn:El.
    + apply lookup_Some_keys in El. tauto.
    + rewrite (In_lookup k v d Hw Hin). reflexivity.
  - simpl. unfold wf, keys, kept.
    assert (G : forall f (l : attrs), NoDup (map fst l) -> NoDup (map fst (filter f l))).
    { clear. induction l as [|[k v] l IH]; simpl; intros Hn; [constructor|].
      apply NoDup_cons_iff in Hn as [Hni Hn]. destruct (f (k, v)); simpl; [|auto].
      constructor; [|auto]. intros Hin. apply Hni. apply in_map_iff in Hin as (e & <- & He).
      apply filter_In in He as [He _]. apply in_map. exact He. }
    apply G. exact Hw.
Qed.

Lemma kept_In d t k v : wf d -> known_target t ->
  In (k, v) (kept d (Some t)) <->
  In (k, v) d /\ ((exists p, k = for_target p t) \/ plain k) /\ ~ In (for_target k t) (keys d).
Proof.
  intros Hw Ht. unfold kept. rewrite filter_In. cbn [fst]. rewrite negb_true_iff. split.
  - intros [Hin Hr]. split; [exact Hin|].
    assert (Hnr : ~ mem (RKey k) (filter_removed (map RKey (keys d)) (Some t)) = true) by congruence.
    rewrite mem_filter_removed in Hnr by (apply known_bare; exact Ht). split.
    + destruct (plain_dec k) as [Hp|(p & u & Hu & E)]; [auto|]. left.
      destruct (dec_eq u t) as [->|Hne]; [eauto|]. exfalso. apply Hnr. left.
      exists u. split; [exact Hu|]. split; [exact Hne|]. exists p. split; [exact E|].
      apply (in_map fst) in Hin. exact Hin.
    + intros Hx. apply Hnr. auto.
  - intros (Hin & Hk & Hn). split; [exact Hin|].
    destruct (mem (RKey k) (filter_removed (map RKey (keys d)) (Some t))) eqn:E; [|reflexivity].
    apply mem_filter_removed in E; [|apply known_bare; exact Ht].
    destruct E as [(u & Hu & Hne & p & -> & _)|[_ E]]; [|contradiction].
    destruct Hk as [[q E]|Hp].
    + apply for_target_inj in E as [_ ->]; [congruence|apply known_bare; exact Hu|apply known_bare; exact Ht].
    + exfalso. apply (Hp p u Hu). reflexivity.
Qed.

Lemma NoDup_map_inj {A B} (f : A -> B) l :
  NoDup l -> (forall x y, In x l -> In y l -> f x = f y -> x = y) -> NoDup (map f l).
Proof.
  induction l as [|x l IH]; simpl; intros Hn Hi; [constructor|].
  apply NoDup_cons_iff in Hn as [Hni Hn]. constructor.
  - intros Hin. apply in_map_iff in Hin as (y & E & Hy). apply Hi in E; auto. subst. contradiction.
  - apply IH; auto.
Qed.

Lemma strip_attrs_sound d out p v :
  strip_attrs d = Ok out -> lookup p out = Some v ->
  exists k, strip_attr k = p /\ lookup k d = Some v.
Proof.
  unfold strip_attrs, copy. destruct (has (lit "self") d); [discriminate|]. cbn [bind].
  intros [= <-]. set (ks := filter _ (keys d)). clearbody ks.
  assert (G : forall ks acc, lookup p (fold_left (fun acc key =>
      match lookup key d with Some v => set (strip_attr key) v acc | None => acc end) ks acc) = Some v ->
      lookup p acc = Some v \/ exists k, strip_attr k = p /\ lookup k d = Some v).
  { clear ks. induction ks as [|k ks IH]; simpl; intros acc E; [auto|].
    destruct (IH _ E) as [E'|?]; [|auto].
    destruct (lookup k d) as [w|] eqn:El; [|auto].
    rewrite lookup_set in E'. destruct (eqb_spec p (strip_attr k)) as [->|]; [|auto].
    injection E' as <-. eauto. }
  intros E. apply G in E as [E|E]; [discriminate|exact E].
Qed.
Lemma strip_attrs_wf d out : strip_attrs d = Ok out -> wf out.
Proof.
  unfold strip_attrs, copy. destruct (has (lit "self") d); [discriminate|]. cbn [bind].
  intros [= <-]. set (ks := filter _ (keys d)). clearbody ks.
  assert (G : forall ks (acc : attrs), wf acc -> wf (fold_left (fun acc key =>
      match lookup key d with Some v => set (strip_attr key) v acc | None => acc end) ks acc)).
  { clear ks. induction ks as [|k ks IH]; simpl; intros acc Hw; [exact Hw|].
    apply IH. destruct (lookup k d); [apply wf_set|]; exact Hw. }
  apply G. constructor.
Qed.
Lemma strip_attr_cases k : strip_attr k = k \/ exists t, known_target t /\ k = for_target (strip_attr k) t.
Proof.
  destruct (plain_dec k) as [Hp|(p & t & Ht & ->)]; [left; apply strip_attr_plain; exact Hp|].
  right. exists t. rewrite strip_attr_for_target; auto.
Qed.

(** ** Printing and loading *)
Section RoundTrip.
Variables (uw : char -> bool) (pv : str -> ptype).
Implicit Types x tail : str.

Lemma span_app {A} (f : A -> bool) a b :
  forallb f a = true -> (forall c r, b = c :: r -> f c = false) -> span f (a ++ b) = (a, b).
Proof.
  induction a as [|c a IH]; simpl; intros Ha Hb.
  - destruct b as [|c b]; [reflexivity|]. simpl. rewrite (Hb c b eq_refl). reflexivity.
  - apply andb_true_iff in Ha as [-> Ha]. rewrite IH; auto.
Qed.
Lemma span_decomp {A} (f : A -> bool) l : l = fst (span f l) ++ snd (span f l) /\
  forallb f (fst (span f l)) = true /\ (forall c r, snd (span f l) = c :: r -> f c = false).
Proof.
  induction l as [|c l (IH1 & IH2 & IH3)]; simpl; [repeat split; discriminate|].
  destruct (f c) eqn:E.
  - destruct (span f l) as [a b]. simpl in *. rewrite E. repeat split; auto. f_equal. exact IH1.
  - simpl. repeat split. intros c' r' [= <- _]. exact E.
Qed.

Lemma key_char_iff c : key_char uw c = true <-> is_word uw c = true \/ c = 46%N.
Proof. unfold key_char. rewrite orb_true_iff, N.eqb_eq. tauto. Qed.
Lemma key_char_not_space c : key_char uw c = true -> is_space c = false.
Proof.
  intros Hk. apply key_char_iff in Hk as [Hk| ->]; [|reflexivity].
  apply is_word_not_space in Hk. exact Hk.
Qed.

(** a printed entry is followed by nothing or by a blank and another entry *)
Definition starts_ok x : Prop := exists c r, x = c :: r /\ is_space c = false /\ c <> 61%N.

Lemma load_keyval k v tail f :
  k <> [] -> (forall c, In c k -> is_word uw c = true \/ c = 46%N) -> ~ In 39%N v ->
  load_pairs uw pv (S f) (k ++ lit "='" ++ v ++ lit "'" ++ tail) = (k, VStr v) :: load_pairs uw pv f tail.
Proof.
  intros Hk Hc Hv.
  assert (E : match_keyval uw (k ++ lit "='" ++ v ++ lit "'" ++ tail)
              = Some (k, 39%N :: v ++ [39%N], tail)).
  { unfold match_keyval, match_plus.
    rewrite span_app.
    - destruct k as [|c0 k]; [congruence|]. cbn [lit app span snd].
      cbn. rewrite span_app.
      + reflexivity.
      + apply forallb_forall. intros c Hcin. apply negb_true_iff, N.eqb_neq.
        intros E. cbn in E. subst c. contradiction.
      + intros c r [= <- _]. reflexivity.
    - apply forallb_forall. intros c Hcin. apply key_char_iff. auto.
    - intros c r [= <- _]. reflexivity. }
  destruct k as [|c0 k]; [congruence|].
  cbn [app]. cbn [app] in E. cbn [load_pairs]. rewrite E. f_equal. do 2 f_equal.
  unfold strip_c.
  rewrite (strip_p_id (N.eqb dquote)).
  - apply (strip_p_unique (N.eqb quote) [39%N] v [39%N]); [reflexivity|reflexivity|].
    split; intros c r ->; apply N.eqb_neq; intros <-; apply Hv.
    + left. reflexivity.
    + apply in_app_iff. right. left. reflexivity.
  - split.
    + intros c r [= <- _]. reflexivity.
    + intros c r Er. change (39%N :: v ++ [39%N]) with ((39%N :: v) ++ [39%N]) in Er.
      apply app_inj_tail in Er as [_ <-]. reflexivity.
Qed.

Lemma load_position k tail f :
  k <> [] -> (forall c, In c k -> good_pos_char c) ->
  (tail = [] \/ exists x, tail = 32%N :: x /\ starts_ok x) ->
  load_pairs uw pv (S f) (k ++ tail) = (k, VPos (pv (strip_attr k))) :: load_pairs uw pv f tail.
Proof.
  intros Hk Hc Htail.
  assert (Hnk : match_keyval uw (k ++ tail) = None).
  { unfold match_keyval, match_plus.
    destruct (span_decomp (key_char uw) (k ++ tail)) as (E1 & E2 & E3).
    destruct (span (key_char uw) (k ++ tail)) as [w r]. simpl in *.
    destruct w as [|c0 w]; [reflexivity|].
    (* the rest starts inside k, or is the tail *)
    assert (Hr : (exists c r', r = c :: r' /\ is_space c = false /\ c <> 61%N) \/ r = tail \/ (exists a, k = a ++ r /\ False)).
    { assert (Hpre : forall (w r k tail : str), k ++ tail = w ++ r ->
        (forall c, In c k -> good_pos_char c) ->
        (exists c r', r = c :: r' /\ is_space c = false /\ c <> 61%N) \/ r = tail \/
        (exists a b, w = k ++ a :: b /\ exists t', tail = a :: t')).
      { clear. induction w as [|c w IH]; intros r k tail E Hk; simpl in E.
        - destruct k as [|c k]; simpl in E; [auto|]. left. exists c, (k ++ tail).
          destruct (Hk c (or_introl eq_refl)) as [H1 H2]. split; [auto|]. split; [exact H1|].
          intros ->. apply H2. simpl. tauto.
        - destruct k as [|c' k]; simpl in E.
          + right. right. exists c, w. simpl. split; [reflexivity|]. subst tail. simpl. eauto.
          + injection E as -> E. destruct (IH r k tail E) as [H|[H|(a & b & -> & H)]].
            * intros z Hz. apply Hk. right. exact Hz.
            * auto.
            * auto.
            * right. right. exists a, b. auto. }
      destruct (Hpre _ _ _ _ E1 Hc) as [H|[H|(a & b & Ew & t' & Et)]]; [auto|auto|].
      exfalso. destruct Htail as [->|(x & -> & _)]; [discriminate|].
      injection Et as <- _. rewrite Ew, forallb_app in E2. simpl in E2.
      rewrite andb_false_r in E2. discriminate. }
    destruct Hr as [(c & r' & -> & Hs & H61)|[->|(a & _ & [])]].
    - cbn [span]. rewrite (not_space_rx _ Hs). cbn [snd]. rewrite (proj2 (N.eqb_neq c 61) H61). reflexivity.
    - destruct Htail as [->|(x & -> & c & r' & -> & Hs & H61)]; [reflexivity|].
      cbn [span]. change (rx_space 32) with true. cbn [span]. rewrite (not_space_rx _ Hs). cbn [snd].
      rewrite (proj2 (N.eqb_neq c 61) H61). reflexivity. }
  assert (Hp : match_position (k ++ tail) = Some (k, tail)).
  { unfold match_position. destruct k as [|c k]; [congruence|].
    destruct (Hc c (or_introl eq_refl)) as [H1 H2]. simpl in H2.
    assert (Hq : forall q, c <> q -> match_quoted q ((c :: k) ++ tail) = None).
    { intros q Hq. simpl. rewrite (proj2 (N.eqb_neq c q) Hq). reflexivity. }
    rewrite !Hq by (unfold dquote, quote; intuition congruence).
    cbn [orelse]. unfold match_plus. rewrite span_app.
    - reflexivity.
    - apply forallb_forall. intros z Hz. destruct (Hc z Hz) as [Z1 Z2]. simpl in Z2.
      rewrite (not_space_rx _ Z1). cbn [orb]. rewrite !(proj2 (N.eqb_neq _ _)) by intuition congruence. reflexivity.
    - intros z r Ez. destruct Htail as [->|(x & -> & _)]; [discriminate|]. injection Ez as <- _. reflexivity. }
  destruct k as [|c k]; [congruence|]. cbn [app] in *. cbn [load_pairs].
  rewrite Hnk, Hp. cbv zeta.
  assert (Hst : forall q, (q = 34 \/ q = 39)%N -> strip_c q (c :: k) = c :: k).
  { intros q Hq. unfold strip_c. apply strip_p_id. split; intros z r Ez; apply N.eqb_neq; intros <-.
    - injection Ez as -> _. destruct (Hc q (or_introl eq_refl)) as [_ Hn]. apply Hn. simpl. intuition subst; tauto.
    - destruct (Hc q) as [_ Hn]; [rewrite Ez; apply in_app_iff; right; left; reflexivity|].
      apply Hn. simpl. intuition subst; tauto. }
  rewrite (Hst quote), (Hst dquote) by (unfold quote, dquote; auto). reflexivity.
Qed.

Lemma html_entry_starts e : good_entry uw pv e -> forall tail, starts_ok (html_entry e ++ tail).
Proof.
  destruct e as [k [v|p|r]]; simpl; [| |tauto]; intros Hg tail; unfold html_entry; simpl.
  - destruct Hg as (Hk & Hc & _). destruct k as [|c k]; [congruence|]. simpl.
    eexists _, _. split; [reflexivity|].
    assert (Hkc : key_char uw c = true) by (apply key_char_iff; apply Hc; left; reflexivity).
    split; [apply key_char_not_space; exact Hkc|]. intros ->. discriminate.
  - destruct Hg as (Hk & Hc & _). destruct k as [|c k]; [congruence|]. simpl.
    eexists _, _. split; [reflexivity|]. destruct (Hc c (or_introl eq_refl)) as [H1 H2].
    split; [exact H1|]. intros ->. apply H2. simpl. tauto.
Qed.
End RoundTrip.

Lemma load_skip_space uw pv f x : load_pairs uw pv (S f) (32%N :: x) = load_pairs uw pv f x.
Proof. reflexivity. Qed.

Lemma html_cons e d : d <> [] -> html (e :: d) = html_entry e ++ 32%N :: html d.
Proof. intros Hd. unfold html. simpl map. rewrite join_cons; [reflexivity|]. destruct d; [congruence|discriminate]. Qed.

Lemma load_html uw pv d : Forall (good_entry uw pv) d ->
  forall f, length (html d) <= f -> load_pairs uw pv f (html d) = d.
Proof.
  induction 1 as [|e d He Hd IH]; intros f Hf.
  - destruct f; reflexivity.
  - assert (G : forall tail, (tail = [] \/ exists x, tail = 32%N :: x /\ starts_ok x) ->
       forall f, length (html_entry e ++ tail) <= f ->
       exists f', load_pairs uw pv f (html_entry e ++ tail) = e :: load_pairs uw pv f' tail /\ length tail <= f').
    { intros tail Htail f' Hf'. destruct e as [k [v|p|r]]; simpl in He; [| |tauto].
      - destruct He as (Hk & Hc & Hv). unfold html_entry in *. simpl snd in *. simpl fst in *. cbn [aval_str] in *.
        destruct f' as [|f'].
        { exfalso. destruct k; [congruence|]. simpl in Hf'. lia. }
        exists f'. split.
        + rewrite <- !app_assoc. apply load_keyval; auto.
        + rewrite !app_length in Hf'. simpl in Hf'. lia.
      - destruct He as (Hk & Hc & Hp). unfold html_entry in *. simpl snd in *. simpl fst in *.
        destruct f' as [|f'].
        { exfalso. destruct k; [congruence|]. simpl in Hf'. lia. }
        exists f'. split.
        + rewrite load_position by auto. do 3 f_equal. symmetry.
          apply Hp. destruct (strip_attr_cases k) as [E|(t & Ht & E)].
          * left. split; [|exact E]. apply its_plain. unfold is_target_specific. rewrite E, eqb_refl. reflexivity.
          * right. exists t. auto.
        + rewrite !app_length in Hf'. destruct k; [congruence|]. simpl in Hf'. lia. }
    destruct d as [|e' d'].
    + change (html [e]) with (html_entry e) in *.
      rewrite <- (app_nil_r (html_entry e)) in Hf |- *.
      destruct (G [] (or_introl eq_refl) f Hf) as (f' & E & _). rewrite E. destruct f'; reflexivity.
    + rewrite html_cons in * by discriminate.
      destruct (G (32%N :: html (e' :: d'))) with (f := f) as (f' & E & Hf').
      * right. eexists. split; [reflexivity|].
        inversion Hd as [|? ? He' _]; subst.
        destruct d' as [|e'' d''].
        -- unfold html. simpl. rewrite <- (app_nil_r (html_entry e')). apply (html_entry_starts uw pv). exact He'.
        -- rewrite html_cons by discriminate. apply (html_entry_starts uw pv). exact He'.
      * exact Hf.
      * rewrite E. f_equal. destruct f' as [|f']; [simpl in Hf'; lia|].
        rewrite load_skip_space. apply IH. simpl in Hf'. lia.
Qed.

(** ** Tex printers *)
Lemma tex_arg_text e : tex_arg e = 123%N :: arg_text e ++ [125%N].
Proof. destruct e as [k [v|p|r]]; reflexivity. Qed.
Lemma tex_arguments_split d :
  (forall e, In e d -> ~ In 125%N (arg_text e)) ->
  split_c 125%N (tex_arguments d) = map (fun e => 123%N :: arg_text e) d ++ [[]].
Proof.
  unfold tex_arguments. induction d as [|e d IH]; intros Hn; [reflexivity|]. simpl.
  rewrite tex_arg_text. rewrite <- app_comm_cons, <- app_assoc. simpl app.
  rewrite app_comm_cons, split_c_app.
  - f_equal. apply IH. intros e' He'. apply Hn. right. exact He'.
  - simpl. intros [E|E]; [discriminate|]. apply (Hn e (or_introl eq_refl) E).
Qed.
Lemma tex_opt_text e : tex_opt e = opt_text e.
Proof. destruct e as [k [v|p|r]]; reflexivity. Qed.
Lemma join_comma_split w l :
  ~ In 44%N w -> (forall x, In x l -> ~ In 44%N x) ->
  split_c 44%N (join (lit ", ") (w :: l)) = w :: map (cons 32%N) l.
Proof.
  revert w. induction l as [|x l IH]; intros w Hw Hl.
  - simpl. apply split_c_fresh. exact Hw.
  - rewrite join_cons by discriminate. change (lit ", " ++ join (lit ", ") (x :: l))
      with (44%N :: 32%N :: join (lit ", ") (x :: l)).
    rewrite split_c_app by exact Hw. f_equal.
    specialize (IH x (Hl x (or_introl eq_refl)) (fun y Hy => Hl y (or_intror Hy))).
    cbn [split_c]. change (eqb 44%N 32%N) with false. cbv iota.
    rewrite IH. reflexivity.
Qed.

Lemma Ok_inj {A} (a b : A) : Ok a = Ok b -> a = b.
Proof. congruence. Qed.
Lemma filter_attrs_collect d reqs t sorted out :
  filter_attrs d (Some reqs) t sorted false = Ok out ->
  exists rq, (forall a, In a rq -> In a reqs) /\ out = collect d (norm_target t) rq [].
Proof.
  intros E. apply Ok_inj in E. subst out.
  eexists. split; [|reflexivity].
  intros a Ha. apply filter_In in Ha as [Ha _].
  apply (proj1 (uniq_In reqs a)). destruct sorted; [exact Ha|].
  eapply Permutation_in; [|exact Ha]. apply sort_by_perm.
Qed.

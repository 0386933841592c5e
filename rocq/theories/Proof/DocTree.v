From Coq Require Import List Bool Arith NArith Lia.
From Verif.Base Require Import Str StrFacts Dict DictFacts Result PurePath.
From Verif.Model Require Import DocTree.
From Verif.Spec Require Import DocTree.
Import ListNotations.

Lemma wf_updates (d l : dict path nat) : wf d -> wf (update d l).
Proof. apply wf_update. Qed.

(** ** Well-formed heaps *)
Record WF (h : heap) : Prop := {
  wf_num : keys (docs h) = seq 0 (length (docs h));
  wf_subs : forall i d k e, lookup i (docs h) = Some d -> In (k, e) (subs d) -> i < e /\ exists ed, lookup e (docs h) = Some ed /\ src ed = k }.

Lemma num_lookup h i : keys (docs h) = seq 0 (length (docs h)) -> (exists d, lookup i (docs h) = Some d) <-> i < length (docs h).
Proof.
  intros K. split.
  - intros [d L]. apply lookup_Some_keys in L. rewrite K, in_seq in L. lia.
  - intros H. apply keys_lookup. rewrite K, in_seq. lia.
Qed.
Lemma wf_lt h i d : WF h -> lookup i (docs h) = Some d -> i < length (docs h).
Proof. intros W L. apply (num_lookup h i (wf_num _ W)). eauto. Qed.
Lemma set_len (i : nat) (d : doc) l : has i l = true -> length (set i d l) = length l.
Proof. intros H. rewrite <- !(map_length fst). change (map fst ?x) with (keys x). rewrite keys_set, H. reflexivity. Qed.
Lemma set_doc_num h i d d0 : lookup i (docs h) = Some d0 -> keys (docs h) = seq 0 (length (docs h)) ->
  keys (docs (set_doc i d h)) = seq 0 (length (docs (set_doc i d h))) /\ length (docs (set_doc i d h)) = length (docs h).
Proof.
  intros L K. assert (H : has i (docs h) = true) by (apply has_lookup; eauto). cbn [set_doc docs].
  rewrite set_len by auto. rewrite keys_set, H. auto.
Qed.
Lemma lookup_set_doc h i d j : lookup j (docs (set_doc i d h)) = if eqb j i then Some d else lookup j (docs h).
Proof. cbn [set_doc docs]. apply lookup_set. Qed.
Lemma set_doc_eq h i d : lookup i (docs (set_doc i d h)) = Some d.
Proof. rewrite lookup_set_doc, eqb_refl. reflexivity. Qed.
Lemma set_doc_neq h i d j : j <> i -> lookup j (docs (set_doc i d h)) = lookup j (docs h).
Proof. intros H. rewrite lookup_set_doc. now rewrite (proj2 (eqb_neq j i) H). Qed.

(** Setting a document with the same source *)
Lemma WF_set h i d d0 : WF h -> lookup i (docs h) = Some d0 -> src d = src d0 ->
  (forall k e, In (k, e) (subs d) -> i < e /\ exists ed, lookup e (docs h) = Some ed /\ src ed = k) -> WF (set_doc i d h).
Proof.
  intros W L S H. destruct (set_doc_num h i d d0 L (wf_num _ W)) as [N1 N2]. split; auto.
  assert (X : forall e k, (exists ed, lookup e (docs h) = Some ed /\ src ed = k) -> exists ed, lookup e (docs (set_doc i d h)) = Some ed /\ src ed = k).
  { intros e k (ed & Le & Se). rewrite lookup_set_doc. destruct (eqb_spec e i) as [->|]; [|eauto]. exists d. split; auto. congruence. }
  intros j dj k e Lj I. rewrite lookup_set_doc in Lj. destruct (eqb_spec j i) as [->|Hj].
  - injection Lj as <-. destruct (H _ _ I). auto.
  - destruct (wf_subs _ W _ _ _ _ Lj I). auto.
Qed.
Lemma WF_note h p : WF h -> WF (note_load p h).
Proof. intros [N S]. split; auto. Qed.
Lemma WF_add fs h p par : WF h -> let '(i, h') := add_doc fs p par h in
  WF h' /\ i = length (docs h) /\ length (docs h') = S i /\ lookup i (docs h') = Some (new_doc fs p par) /\ (forall j, j < i -> lookup j (docs h') = lookup j (docs h)).
Proof.
  intros W. cbn [add_doc]. set (i := length (docs h)).
  assert (F : has i (docs h) = false). { apply has_false. rewrite (wf_num _ W), in_seq. unfold i. lia. }
  assert (E : docs (set_doc i (new_doc fs p par) h) = docs h ++ [(i, new_doc fs p par)]) by (cbn [set_doc docs]; now apply set_new).
  assert (Lo : forall j, j < i -> lookup j (docs (set_doc i (new_doc fs p par) h)) = lookup j (docs h)) by (intros; apply set_doc_neq; lia).
  split; [|split; [reflexivity|split; [|split; [apply set_doc_eq|exact Lo]]]].
  - split.
    + rewrite E, app_length. unfold keys. rewrite map_app. change (map fst (docs h)) with (keys (docs h)). rewrite (wf_num _ W). cbn. rewrite seq_app. reflexivity.
    + intros j d k e L I. rewrite lookup_set_doc in L. destruct (eqb_spec j i) as [->|Hj].
      * injection L as <-. contradiction.
      * destruct (wf_subs _ W _ _ _ _ L I) as (H1 & ed & H2 & H3). split; auto. exists ed. split; auto. rewrite Lo; auto. apply (wf_lt _ _ _ W H2).
  - rewrite E, app_length. cbn. lia.
Qed.

(** ** Trees *)
Lemma tree_le h i e : WF h -> in_tree h i e -> i <= e.
Proof. intros W T. induction T as [|i d k s e L I T IH]; auto. destruct (wf_subs _ W _ _ _ _ L I). lia. Qed.
Lemma tree_doc h i e : in_tree h i e -> exists d, lookup e (docs h) = Some d.
Proof. intros T. induction T; eauto. Qed.
Lemma tree_start h i e : in_tree h i e -> exists d, lookup i (docs h) = Some d.
Proof. intros T. destruct T; eauto. Qed.
Lemma tree_trans h i j e : in_tree h i j -> in_tree h j e -> in_tree h i e.
Proof. intros T. induction T as [|i d k s e' L I T IH]; auto. intros T2. eapply tree_sub; eauto. Qed.
Lemma tree_inv h i x d : in_tree h i x -> lookup i (docs h) = Some d -> x = i \/ exists k s, In (k, s) (subs d) /\ in_tree h s x.
Proof. intros T L. inversion T; subst; auto. right. assert (d0 = d) as -> by congruence. eauto. Qed.
Lemma tree_proper h i e : WF h -> in_tree h i e -> e <> i -> i < e.
Proof. intros W T N. pose proof (tree_le _ _ _ W T). lia. Qed.

(** Two heaps with the same trees in a range *)
Lemma tree_frame h h' (R : nat -> Prop) : 
  (forall j, R j -> option_map subs (lookup j (docs h')) = option_map subs (lookup j (docs h))) ->
  (forall j d k e, R j -> lookup j (docs h) = Some d -> In (k, e) (subs d) -> R e) ->
  forall i e, R i -> in_tree h i e <-> in_tree h' i e.
Proof.
  intros F C i e Ri. split.
  - intros T. revert Ri. induction T as [i d L|i d k s e L I T IH]; intros Ri; specialize (F _ Ri); rewrite L in F;
      destruct (lookup i (docs h')) as [d'|] eqn:L'; try discriminate; injection F as F.
    + eapply tree_self; eauto.
    + eapply tree_sub; [eauto|rewrite F; eauto|]. apply IH. eapply C; eauto.
  - intros T. revert Ri. induction T as [i d L|i d k s e L I T IH]; intros Ri; specialize (F _ Ri); rewrite L in F;
      destruct (lookup i (docs h)) as [d'|] eqn:L'; try discriminate; injection F as F.
    + eapply tree_self; eauto.
    + rewrite F in I. eapply tree_sub; eauto.
Qed.

(** ** The dictionary of documents *)
Definition srcs_of (h : heap) (i : nat) (k : path) : Prop := exists e d, in_tree h i e /\ lookup e (docs h) = Some d /\ src d = k.
Lemma merge_keys a b k : In k (keys (merge a b)) <-> In k (keys a) \/ In k (keys b).
Proof.
  unfold merge. rewrite <- !has_keys. unfold has. rewrite lookup_update.
  assert (X : lookup k (rev b) = None <-> lookup k b = None).
  { rewrite !lookup_None. unfold keys. rewrite map_rev, <- in_rev. tauto. }
  destruct (lookup k (rev b)) as [v|] eqn:E.
  - destruct (lookup k b) eqn:E2; [tauto|]. destruct X as [_ X]. specialize (X eq_refl). congruence.
  - rewrite (proj1 X eq_refl). destruct (lookup k a); intuition congruence.
Qed.
Lemma merge_lookup a b k e : lookup k (merge a b) = Some e -> lookup k a = Some e \/ In (k, e) b.
Proof.
  unfold merge. rewrite lookup_update. destruct (lookup k (rev b)) as [v|] eqn:E; auto. intros H. injection H as ->.
  right. apply lookup_In in E. now apply in_rev in E.
Qed.
Lemma wf_merge a b : wf a -> wf (merge a b).
Proof. apply wf_update. Qed.
Lemma doc_dict_wf n h i : wf (doc_dict n h i).
Proof.
  destruct n as [|n]; [constructor|]. cbn [doc_dict]. destruct (lookup i (docs h)) as [d|]; [|constructor].
  assert (X : wf (set (src d) i nil)) by (apply wf_set; constructor). revert X. generalize (set (src d) i nil : dict path nat).
  induction (subs d) as [|kv l IH]; intros a X; cbn; auto. apply IH. now apply wf_merge.
Qed.
Lemma doc_dict_values n h i k e : WF h -> lookup k (doc_dict n h i) = Some e -> in_tree h i e /\ exists d, lookup e (docs h) = Some d /\ src d = k.
Proof.
  intros W. revert i k e. induction n as [|n IH]; intros i k e H; [discriminate|]. cbn [doc_dict] in H.
  destruct (lookup i (docs h)) as [d|] eqn:L; [|discriminate].
  assert (X : forall l a, (forall k e, lookup k a = Some e -> in_tree h i e /\ exists d, lookup e (docs h) = Some d /\ src d = k) ->
    (forall kv, In kv l -> In kv (subs d)) ->
    forall k e, lookup k (fold_left (fun acc kv => merge acc (doc_dict n h (snd kv))) l a) = Some e -> in_tree h i e /\ exists d, lookup e (docs h) = Some d /\ src d = k).
  { induction l as [|kv l IHl]; intros a Ha Hl; cbn; auto. apply IHl; [|intros; apply Hl; now right].
    intros k' e' H'. apply merge_lookup in H' as [H'|H']; auto. apply In_lookup in H'; [|apply doc_dict_wf]. apply IH in H' as (T & D). split; auto.
    destruct kv as [k0 s]. eapply tree_sub; eauto. apply Hl. now left. }
  eapply X; [|intros kv Hk; exact Hk|exact H]. intros k' e' H'. rewrite lookup_set in H'. destruct (eqb_spec k' (src d)) as [->|]; [|discriminate].
  injection H' as <-. split; [eapply tree_self; eauto|eauto].
Qed.
Lemma doc_dict_keys n h i k : WF h -> length (docs h) - i <= n -> In k (keys (doc_dict n h i)) <-> srcs_of h i k.
Proof.
  intros W. revert i. induction n as [|n IH]; intros i Hn.
  - split; [intros []|]. intros (e & d & T & L & _). pose proof (tree_le _ _ _ W T). pose proof (wf_lt _ _ _ W L). lia.
  - cbn [doc_dict]. destruct (lookup i (docs h)) as [d|] eqn:L.
    2:{ split; [intros []|]. intros (e & d & T & _). apply tree_start in T. destruct T as [d' L']. congruence. }
    assert (X : forall l a, (forall kv, In kv l -> In kv (subs d)) ->
      In k (keys (fold_left (fun acc kv => merge acc (doc_dict n h (snd kv))) l a)) <-> In k (keys a) \/ exists kv, In kv l /\ srcs_of h (snd kv) k).
    { induction l as [|kv l IHl]; intros a Hl; cbn [fold_left].
      - split; auto. intros [H|(kv & [] & _)]; auto.
      - rewrite IHl by (intros; apply Hl; now right). rewrite merge_keys.
        destruct kv as [k0 s]. destruct (wf_subs _ W _ _ _ _ L (Hl _ (or_introl eq_refl))) as (Lt & ed & Ls & _).
        pose proof (wf_lt _ _ _ W Ls). cbn [snd]. rewrite IH by lia. split.
        + intros [[H1|H1]|(kv & H1 & H2)]; auto; right; [exists (k0, s); split; [now left|exact H1]|exists kv; split; [now right|exact H2]].
        + intros [H1|(kv & [<-|H1] & H2)]; auto. right. eauto. }
    rewrite X by auto. rewrite keys_set. cbn. split.
    + intros [[<-|[]]|([k0 s] & H1 & (e & d' & T & L' & S))].
      * exists i, d. split; [eapply tree_self; eauto|auto].
      * exists e, d'. split; auto. eapply tree_sub; eauto.
    + intros (e & d' & T & L' & S). inversion T as [? ? Li|? ? k0 s ? Li I T']; subst.
      * left. left. congruence.
      * right. assert (d0 = d) as -> by congruence. exists (k0, s). split; auto. exists e, d'. auto.
Qed.
Lemma dd_keys h i k : WF h -> In k (keys (documents_dict h i)) <-> srcs_of h i k.
Proof. intros W. apply doc_dict_keys; auto. lia. Qed.
Lemma dd_values h i k e : WF h -> lookup k (documents_dict h i) = Some e -> in_tree h i e /\ exists d, lookup e (docs h) = Some d /\ src d = k.
Proof. intros W. now apply doc_dict_values. Qed.

(** ** Updating times *)
Definition core (d : doc) := set_mtime None d.
Lemma bump_spec n m h i : WF h ->
  WF (bump n m h i) /\ length (docs (bump n m h i)) = length (docs h) /\ loads (bump n m h i) = loads h /\
  (forall j, option_map core (lookup j (docs (bump n m h i))) = option_map core (lookup j (docs h))) /\
  (forall j, lookup j (docs (bump n m h i)) = lookup j (docs h) \/
     in_tree h i j /\ exists d t, lookup j (docs h) = Some d /\ mtime d = Some t /\ (t < m)%N /\ lookup j (docs (bump n m h i)) = Some (set_mtime (Some m) d)).
Proof.
  revert h i. induction n as [|n IH]; intros h i W; cbn [bump]; [auto 6|].
  destruct (lookup i (docs h)) as [d|] eqn:L; [|auto 6].
  set (h1 := match mtime d with Some t => if N.ltb t m then set_doc i (set_mtime (Some m) d) h else h | None => h end).
  assert (H1 : WF h1 /\ length (docs h1) = length (docs h) /\ loads h1 = loads h /\
    (forall j, option_map core (lookup j (docs h1)) = option_map core (lookup j (docs h))) /\
    (forall j, lookup j (docs h1) = lookup j (docs h) \/
      in_tree h i j /\ exists d t, lookup j (docs h) = Some d /\ mtime d = Some t /\ (t < m)%N /\ lookup j (docs h1) = Some (set_mtime (Some m) d))).
  { unfold h1. destruct (mtime d) as [t|] eqn:M; [|auto 6]. destruct (N.ltb_spec t m) as [Lt|]; [|auto 6].
    split; [|split; [|split; [reflexivity|split]]].
    - eapply WF_set; eauto. cbn. intros k e I. exact (wf_subs _ W _ _ _ _ L I).
    - eapply set_doc_num; eauto. apply W.
    - intros j. rewrite lookup_set_doc. destruct (eqb_spec j i) as [->|]; auto. rewrite L. reflexivity.
    - intros j. rewrite lookup_set_doc. destruct (eqb_spec j i) as [->|]; auto. right. split; [eapply tree_self; eauto|]. exists d, t. auto. }
  clearbody h1. destruct H1 as (W1 & N1 & O1 & C1 & V1).
  assert (X : forall l, (forall kv, In kv l -> In kv (subs d)) -> forall g, WF g -> length (docs g) = length (docs h) -> loads g = loads h ->
     (forall j, option_map core (lookup j (docs g)) = option_map core (lookup j (docs h))) ->
     (forall j, lookup j (docs g) = lookup j (docs h) \/
        in_tree h i j /\ exists d t, lookup j (docs h) = Some d /\ mtime d = Some t /\ (t < m)%N /\ lookup j (docs g) = Some (set_mtime (Some m) d)) ->
     let g' := fold_left (fun h kv => bump n m h (snd kv)) l g in
     WF g' /\ length (docs g') = length (docs h) /\ loads g' = loads h /\
     (forall j, option_map core (lookup j (docs g')) = option_map core (lookup j (docs h))) /\
     (forall j, lookup j (docs g') = lookup j (docs h) \/
        in_tree h i j /\ exists d t, lookup j (docs h) = Some d /\ mtime d = Some t /\ (t < m)%N /\ lookup j (docs g') = Some (set_mtime (Some m) d))).
  { induction l as [|[k s] l IHl]; intros Hl g Wg Ng Og Cg Vg; cbn [fold_left]; [cbv zeta; auto 6|].
    destruct (IH g s Wg) as (W2 & N2 & O2 & C2 & V2). cbn [snd].
    apply IHl; auto; [intros; apply Hl; now right|congruence|congruence| |].
    - intros j. now rewrite C2.
    - intros j. specialize (V2 j). specialize (Vg j). destruct V2 as [E2|(T2 & dj & t & Lj & Mj & Lt & E2)].
      + rewrite E2. exact Vg.
      + assert (Tj : in_tree h i j).
        { eapply tree_sub; [exact L|apply Hl; left; reflexivity|].
          apply (tree_frame h g (fun _ => True)); auto. intros j' _. specialize (Cg j'). destruct (lookup j' (docs g)), (lookup j' (docs h)); try discriminate; auto.
          cbn in *. injection Cg as _ _ _ _ Cg _. now rewrite Cg. }
        destruct Vg as [Eg|(_ & d0 & t0 & L0 & M0 & Lt0 & Eg)].
        * right. split; auto. exists dj, t. rewrite <- Eg. auto.
        * exfalso. rewrite Eg in Lj. injection Lj as <-. cbn in Mj. injection Mj as <-. lia. }
  apply X; auto.
Qed.

(** ** Loading *)
Section Load.
Variables (fs : files) (root : nat) (now : N).
Hypothesis Hfs : forall p f, lookup p fs = Some f -> (fmtime f <= now)%N.

(** What a load from [i] keeps *)
Record grows (i : nat) (h h' : heap) : Prop := {
  gr_low : forall j, j < i -> lookup j (docs h') = lookup j (docs h);
  gr_src : forall j d, lookup j (docs h) = Some d -> exists d', lookup j (docs h') = Some d' /\ src d' = src d /\ parent d' = parent d }.
Lemma grows_refl i h : grows i h h.
Proof. split; eauto. Qed.
Lemma grows_trans i h1 h2 h3 : grows i h1 h2 -> grows i h2 h3 -> grows i h1 h3.
Proof.
  intros [A1 A2] [B1 B2]. split.
  - intros j Hj. now rewrite B1, A1.
  - intros j d L. destruct (A2 _ _ L) as (d' & L' & S & P). destruct (B2 _ _ L') as (d2 & L2 & S2 & P2). exists d2. split; auto. split; congruence.
Qed.
Lemma grows_weak i j h h' : i <= j -> grows j h h' -> grows i h h'.
Proof. intros Hl [A1 A2]. split; auto. intros k Hk. apply A1. lia. Qed.
Lemma grows_set i h d d0 : lookup i (docs h) = Some d0 -> src d = src d0 -> parent d = parent d0 -> grows i h (set_doc i d h).
Proof.
  intros L S P. split.
  - intros j Hj. apply set_doc_neq. lia.
  - intros j dj Lj. rewrite lookup_set_doc. destruct (eqb_spec j i) as [->|]; eauto. exists d. split; auto. split; congruence.
Qed.

(** Times *)
Definition timed (d : doc) : Prop :=
  (forall m, mtime d = Some m -> (m <= now)%N) /\
  (loaded d = true -> exists m, mtime d = Some m /\ forall f, lookup (src d) fs = Some f -> (fmtime f <= m)%N -> held d = Some (contents f) /\ includes d = fincludes f).
Definition TI (h : heap) : Prop := forall j d, lookup j (docs h) = Some d -> timed d.
Lemma TI_set h i d : TI h -> timed d -> TI (set_doc i d h).
Proof. intros T H j dj L. rewrite lookup_set_doc in L. destruct (eqb j i); [injection L as <-; auto|eauto]. Qed.

(** Documents whose tree is current *)
Definition Gd (h : heap) (e : nat) : Prop := (exists d, lookup e (docs h) = Some d) /\ forall x, in_tree h e x -> current fs h x.
Lemma Gd_coind h (Q : nat -> Prop) :
  (forall e, Q e -> current fs h e /\ forall d k s, lookup e (docs h) = Some d -> In (k, s) (subs d) -> Q s) -> forall e, Q e -> Gd h e.
Proof.
  intros H e Qe. split; [destruct (H _ Qe) as [(d & f & L & _) _]; eauto|].
  intros x T. revert Qe. induction T as [i d L|i d k s e L I T IH]; intros Qe; [now apply H|]. apply IH. destruct (H _ Qe) as [_ X]. eauto.
Qed.
Lemma Gd_cur h e : Gd h e -> current fs h e.
Proof. intros [[d L] H]. apply H. eapply tree_self; eauto. Qed.
Lemma Gd_sub h e d k s : Gd h e -> WF h -> lookup e (docs h) = Some d -> In (k, s) (subs d) -> Gd h s.
Proof.
  intros [_ H] W L I. destruct (wf_subs _ W _ _ _ _ L I) as (_ & ed & Ls & _). split; eauto. intros x T. apply H. eapply tree_sub; eauto.
Qed.

(** Setting a document that stays current, with sub-documents that are good *)
Lemma Gd_set h i d : WF h -> current fs (set_doc i d h) i -> (forall k s, In (k, s) (subs d) -> Gd h s) ->
  (forall e, Gd h e -> Gd (set_doc i d h) e) /\ Gd (set_doc i d h) i.
Proof.
  intros W C S.
  assert (X : forall e, Gd h e \/ e = i -> Gd (set_doc i d h) e).
  { apply Gd_coind. intros e He. destruct (Nat.eq_dec e i) as [->|Ne].
    - split; auto. intros d' k s L I. rewrite set_doc_eq in L. injection L as <-. left. eauto.
    - destruct He as [He|He]; [|contradiction]. split.
      + destruct (Gd_cur _ _ He) as (de & f & L & R). exists de, f. rewrite set_doc_neq by auto. auto.
      + intros d' k s L I. rewrite set_doc_neq in L by auto. left. eapply Gd_sub; eauto. }
  split; auto.
Qed.
Lemma Gd_note h p e : Gd h e <-> Gd (note_load p h) e.
Proof.
  assert (X : forall i x, in_tree h i x <-> in_tree (note_load p h) i x).
  { intros i x. apply (tree_frame h (note_load p h) (fun _ => True)); auto. }
  unfold Gd. split; intros [H1 H2]; (split; [exact H1|]); intros x T; apply X in T; destruct (H2 _ T) as (d & f & R); exists d, f; exact R.
Qed.

(** The result of a call *)
Definition kept (i : nat) (h h' : heap) (r : result bool) : Prop :=
  WF h' /\ TI h' /\ grows i h h' /\ forall b, r = Ok b -> (forall e, Gd h e -> Gd h' e) /\ Gd h' i.

Lemma WF_add_sub h i p e d : WF h -> lookup i (docs h) = Some d -> i < e -> (exists ed, lookup e (docs h) = Some ed /\ src ed = p) ->
  WF (set_doc i (set_subs (set p e (subs d)) d) h).
Proof.
  intros W L Lt E. eapply WF_set; eauto. cbn. intros k x I.
  assert (X : In (k, x) (subs d) \/ (k, x) = (p, e)).
  { clear -I. induction (subs d) as [|[k0 v0] l IH]; cbn in I; [destruct I as [<-|[]]; auto|]. destruct (eqb_spec p k0) as [<-|].
    - destruct I as [I|I]; auto. left. now right.
    - destruct I as [I|I]; [left; now left|]. destruct (IH I); auto. left. now right. }
  destruct X as [X|X]; [exact (wf_subs _ W _ _ _ _ L X)|]. injection X as -> ->. auto.
Qed.
Lemma in_set (p : path) (e : nat) l k x : In (k, x) (set p e l) -> In (k, x) l \/ (k, x) = (p, e).
Proof.
  intros I. induction l as [|[k0 v0] l IH]; cbn in I; [destruct I as [<-|[]]; auto|]. destruct (eqb_spec p k0) as [<-|].
  - destruct I as [I|I]; auto. left. now right.
  - destruct I as [I|I]; [left; now left|]. destruct (IH I); auto. left. now right.
Qed.

Lemma current_core h h' e : option_map core (lookup e (docs h')) = option_map core (lookup e (docs h)) -> current fs h e -> current fs h' e.
Proof.
  intros C (d & f & L & F & R). rewrite L in C. destruct (lookup e (docs h')) as [d'|] eqn:L'; [|discriminate]. injection C as C1 C2 C3 C4 C5 C6.
  exists d', f. rewrite C1, C2, C3, C4. auto.
Qed.
Lemma update_mtime_kept h i : WF h -> TI h -> Gd h i ->
  let h' := update_mtime h i in WF h' /\ TI h' /\ grows i h h' /\ (forall e, Gd h e -> Gd h' e) /\ length (docs h') = length (docs h) /\ loads h' = loads h /\
    (forall j, option_map core (lookup j (docs h')) = option_map core (lookup j (docs h))).
Proof.
  intros W T G. cbv zeta. unfold update_mtime. destruct (lookup i (docs h)) as [d|] eqn:L; [|auto 7 using grows_refl].
  destruct (mtime d) as [m|] eqn:M; [|auto 7 using grows_refl].
  destruct (bump_spec (S (length (docs h))) m h i W) as (W' & N & O & C & V).
  split; auto. split; [|split; [|split; [|auto]]].
  - intros j dj Lj. destruct (V j) as [E|(Tj & d0 & t & L0 & M0 & Lt & E)]; [rewrite E in Lj; eapply T; eauto|].
    rewrite E in Lj. injection Lj as <-. split; cbn.
    + intros m' Em. injection Em as <-. exact (proj1 (T _ _ L) _ M).
    + intros Ld. exists m. split; auto. intros f F _. destruct G as [_ G]. destruct (G _ Tj) as (dj & f' & Lj & F' & _ & Hh & Hi).
      assert (dj = d0) as -> by congruence. assert (f' = f) as -> by congruence. auto.
  - split.
    + intros j Hj. destruct (V j) as [E|(Tj & _)]; auto. apply tree_le in Tj; auto. lia.
    + intros j dj Lj. specialize (C j). rewrite Lj in C. destruct (lookup j (docs (bump _ _ _ _))) as [d'|]; [|discriminate]. injection C as C1 C2 C3 C4 C5 C6. eauto.
  - intros e Ge. split; [destruct Ge as [[de Le] _]; specialize (C e); rewrite Le in C; destruct (lookup e (docs (bump _ _ _ _))); eauto; discriminate|].
    intros x Tx. destruct Ge as [_ Ge]. apply (current_core h); auto. apply Ge.
    apply (tree_frame h (bump (S (length (docs h))) m h i) (fun _ => True)); auto.
    intros j _. specialize (C j). destruct (lookup j (docs (bump _ _ _ _))), (lookup j (docs h)); try discriminate; auto. cbn in *. injection C as C1 C2 C3 C4 C5 C6. congruence.
Qed.

Section Each.
Variable ld : nat -> heap -> out bool.
Hypothesis Hld : forall i h, WF h -> TI h -> (exists d, lookup i (docs h) = Some d) -> kept i h (fst (ld i h)) (snd (ld i h)).
Variables (i : nat) (own : path) (root_dict subs_dict : dict path nat).
Lemma load_each_kept ps : forall h d, WF h -> TI h -> lookup i (docs h) = Some d -> src d = own ->
  (forall p e, lookup p subs_dict = Some e -> p <> own -> i < e /\ exists ed, lookup e (docs h) = Some ed /\ src ed = p) ->
  let r := load_each fs ld i own root_dict subs_dict ps h in
  WF (fst r) /\ TI (fst r) /\ grows i h (fst r) /\ forall b, snd r = Ok b -> Gd h i -> (forall e, Gd h e -> Gd (fst r) e).
Proof.
  induction ps as [|p ps IH]; intros h d W T L S D; cbn [load_each]; [cbn; auto using grows_refl|].
  destruct (eqb_spec p own) as [->|Np]; [eapply IH; eauto|].
  assert (Dg : forall h', grows i h h' -> forall p e, lookup p subs_dict = Some e -> p <> own -> i < e /\ exists ed, lookup e (docs h') = Some ed /\ src ed = p).
  { intros h' G q e Lq Nq. destruct (D _ _ Lq Nq) as (H1 & ed & H2 & H3). split; auto. destruct (gr_src _ _ _ G _ _ H2) as (d' & H4 & H5 & _). exists d'. split; auto. congruence. }
  (* adding a sub-document *)
  assert (AS : forall h1 e, WF h1 -> TI h1 -> grows i h h1 -> i < e -> (exists ed, lookup e (docs h1) = Some ed /\ src ed = p) ->
     exists d1, lookup i (docs h1) = Some d1 /\ src d1 = own /\ add_sub i p e h1 = set_doc i (set_subs (set p e (subs d1)) d1) h1 /\
     WF (add_sub i p e h1) /\ TI (add_sub i p e h1) /\ grows i h1 (add_sub i p e h1) /\ (Gd h1 i -> Gd h1 e -> forall x, Gd h1 x -> Gd (add_sub i p e h1) x)).
  { intros h1 e W1 T1 G1 Lt Ee. destruct (gr_src _ _ _ G1 _ _ L) as (d1 & L1 & S1 & _). exists d1.
    assert (E : add_sub i p e h1 = set_doc i (set_subs (set p e (subs d1)) d1) h1) by (unfold add_sub, upd; now rewrite L1).
    split; auto. split; [congruence|]. split; auto. rewrite E.
    split; [now apply WF_add_sub|]. split; [apply TI_set; auto; destruct (T1 _ _ L1) as [A B]; split; cbn; auto|].
    split; [now apply (grows_set i h1 _ d1)|].
    intros Gi Ge. apply Gd_set; auto.
    - destruct (Gd_cur _ _ Gi) as (d2 & f & L2 & R). assert (d2 = d1) as -> by congruence. exists (set_subs (set p e (subs d1)) d1), f. rewrite set_doc_eq. auto.
    - cbn. intros k s I. apply in_set in I as [I|I]; [exact (Gd_sub _ _ _ _ _ Gi W1 L1 I)|]. injection I as -> ->. exact Ge. }
  destruct (lookup p subs_dict) as [e|] eqn:Le.
  - destruct (D _ _ Le Np) as (Lt & ed & Led & Sed).
    pose proof (Hld e h W T (ex_intro _ _ Led)) as (W1 & T1 & G1 & K1). destruct (ld e h) as [h1 r1]. cbn [fst snd] in *. unfold andthen. cbn [fst snd].
    destruct r1 as [b1|x]; [|cbn [fst snd]; split; auto; split; auto; split; [apply (grows_weak i e); auto; lia|discriminate]].
    destruct (K1 _ eq_refl) as [K2 K3]. clear K1.
    assert (G1' : grows i h h1) by (apply (grows_weak i e); auto; lia).
    destruct (gr_src _ _ _ G1 _ _ Led) as (ed1 & Led1 & Sed1 & _). rewrite Led1.
    set (h2 := if has own (subs ed1) then h1 else add_sub i p e h1).
    assert (H2 : WF h2 /\ TI h2 /\ grows i h h2 /\ exists d2, lookup i (docs h2) = Some d2 /\ src d2 = own /\ (Gd h i -> forall x, Gd h x -> Gd h2 x)).
    { unfold h2. destruct (has own (subs ed1)).
      - destruct (gr_src _ _ _ G1' _ _ L) as (d1 & L1 & S1 & _). split; auto. split; auto. split; auto. exists d1. split; auto. split; [congruence|]. auto.
      - destruct (AS h1 e W1 T1 G1' Lt) as (d1 & L1 & S1 & E1 & W2 & T2 & G2 & P2); [exists ed1; split; auto; congruence|].
        split; auto. split; auto. split; [eapply grows_trans; eauto|]. rewrite E1. eexists. split; [apply set_doc_eq|]. split; [exact S1|].
        rewrite <- E1. intros Gi x Gx. apply P2; auto. }
    clearbody h2. destruct H2 as (W2 & T2 & G2 & d2 & L2 & S2 & P2).
    pose proof (IH h2 d2 W2 T2 L2 S2 (Dg _ G2)) as (W3 & T3 & G3 & P3). destruct (load_each fs ld i own root_dict subs_dict ps h2) as [h3 r3]. cbn [fst snd] in *.
    destruct r3 as [b3|x]; cbn [fst snd]; (split; [auto|]; split; [auto|]; split; [eapply grows_trans; eauto|]).
    + intros b Eb Gi x Gx. exact (P3 _ eq_refl (P2 Gi _ Gi) _ (P2 Gi _ Gx)).
    + discriminate.
  - destruct (has p root_dict); [eapply IH; eauto|].
    pose proof (WF_add fs h p (Some i) W) as A. destruct (add_doc fs p (Some i) h) as [e h1] eqn:Ea. destruct A as (W1 & Ei & N1 & Lnew & Low).
    assert (Lt : i < e) by (rewrite Ei; apply (wf_lt _ _ _ W L)).
    assert (T1 : TI h1).
    { intros j dj Lj. destruct (Nat.lt_ge_cases j e) as [Hj|Hj].
      - rewrite Low in Lj by auto. eapply T; eauto.
      - assert (j = e) as -> by (pose proof (wf_lt _ _ _ W1 Lj); lia). rewrite Lnew in Lj. injection Lj as <-. split; cbn; [|discriminate].
        intros m E. destruct (lookup p fs) as [f|] eqn:Lf; [|discriminate]. injection E as <-. eapply Hfs; eauto. }
    assert (G1 : grows i h h1).
    { split; [intros j Hj; apply Low; lia|]. intros j dj Lj. exists dj. rewrite Low by (rewrite Ei; apply (wf_lt _ _ _ W Lj)). auto. }
    assert (P1 : forall x, Gd h x -> Gd h1 x).
    { apply Gd_coind. intros x Gx. pose proof (Gd_cur _ _ Gx) as (dx & f & Lx & R). pose proof (wf_lt _ _ _ W Lx) as Hx. rewrite <- Ei in Hx. split.
      - exists dx, f. rewrite Low by auto. auto.
      - intros d' k s L' I. rewrite Low in L' by auto. eapply Gd_sub; eauto. }
    pose proof (Hld e h1 W1 T1 (ex_intro _ _ Lnew)) as (W2 & T2 & G2 & K2). destruct (ld e h1) as [h2 r2]. cbn [fst snd] in *. unfold andthen. cbn [fst snd].
    assert (G2' : grows i h h2) by (eapply grows_trans; [exact G1|apply (grows_weak i e); auto; lia]).
    destruct r2 as [b2|x]; [|cbn [fst snd]; split; auto; split; auto; split; auto; discriminate].
    destruct (K2 _ eq_refl) as [K3 K4]. clear K2.
    destruct (gr_src _ _ _ G2 _ _ Lnew) as (ed1 & Led1 & Sed1 & _).
    destruct (AS h2 e W2 T2 G2' Lt) as (d1 & L1 & S1 & E1 & W3 & T3 & G3 & P3); [exists ed1; split; auto|].
    assert (L3 : exists d3, lookup i (docs (add_sub i p e h2)) = Some d3 /\ src d3 = own).
    { rewrite E1. eexists. split; [apply set_doc_eq|exact S1]. }
    destruct L3 as (d3 & L3 & S3).
    assert (G3' : grows i h (add_sub i p e h2)) by (eapply grows_trans; eauto).
    pose proof (IH _ d3 W3 T3 L3 S3 (Dg _ G3')) as (W4 & T4 & G4 & P4). destruct (load_each fs ld i own root_dict subs_dict ps (add_sub i p e h2)) as [h4 r4]. cbn [fst snd] in *.
    destruct r4 as [b4|x]; cbn [fst snd]; (split; [auto|]; split; [auto|]; split; [eapply grows_trans; eauto|]).
    + intros b Eb Gi x Gx. assert (H : forall y, Gd h y -> Gd (add_sub i p e h2) y) by (intros y Gy; apply P3; auto). exact (P4 _ eq_refl (H _ Gi) _ (H _ Gx)).
    + discriminate.
Qed.
End Each.

Definition keptp (i : nat) (h : heap) (x : out bool) : Prop := kept i h (fst x) (snd x).
Lemma load_kept n : forall i h, WF h -> TI h -> (exists d, lookup i (docs h) = Some d) -> kept i h (fst (load fs root n i h)) (snd (load fs root n i h)).
Proof.
  induction n as [|n IH]; intros i h W T [d L]; match goal with |- kept _ _ (fst ?x) (snd ?x) => change (keptp i h x) end; cbn [load].
  - unfold keptp, kept. cbn. split; auto. split; auto. split; [apply grows_refl|discriminate].
  - rewrite L. destruct (lookup (src d) fs) as [f|] eqn:F; [|unfold keptp, kept; cbn; split; auto; split; auto; split; [apply grows_refl|discriminate]].
    set (rd := if load_required h d f then read i d f h else (h, Ok tt)).
    assert (R : WF (fst rd) /\ TI (fst rd) /\ grows i h (fst rd) /\ forall u, snd rd = Ok u ->
      (forall e, Gd h e -> Gd (fst rd) e) /\ current fs (fst rd) i).
    { unfold rd. destruct (load_required h d f) eqn:Q.
      - unfold read. destruct (small f) eqn:Sm; cbn [negb].
        2:{ cbn [fst snd]. split; [eapply WF_set; eauto; intros k e I; exact (wf_subs _ W _ _ _ _ L I)|].
            split; [apply TI_set; auto; destruct (T _ _ L) as [A B]; split; cbn; auto; discriminate|]. split; [now apply (grows_set i h _ d)|discriminate]. }
        destruct (good f) eqn:Gf; cbn [negb fst snd].
        + split; [apply WF_note; eapply WF_set; eauto; intros k e I; exact (wf_subs _ W _ _ _ _ L I)|].
          split; [|split].
          * set (d' := {| src := src d; loaded := true; mtime := Some (fmtime f); held := Some (contents f); includes := fincludes f; subs := subs d; parent := parent d |}).
            intros j dj Lj. apply (TI_set h i d' T) with (j := j); auto. unfold d'. split; cbn.
            -- intros m E. injection E as <-. eapply Hfs; eauto.
            -- intros _. exists (fmtime f). split; auto. intros f' F' _. assert (f' = f) as -> by congruence. auto.
          * set (d' := {| src := src d; loaded := true; mtime := Some (fmtime f); held := Some (contents f); includes := fincludes f; subs := subs d; parent := parent d |}).
            destruct (grows_set i h d' d L eq_refl eq_refl) as [A B]. split; auto.
          * intros _ _. set (d' := {| src := src d; loaded := true; mtime := Some (fmtime f); held := Some (contents f); includes := fincludes f; subs := subs d; parent := parent d |}).
            assert (Ci : current fs (set_doc i d' h) i). { exists d', f. rewrite set_doc_eq. auto. }
            split; [|exact Ci].
            intros e Ge. apply Gd_note.
            assert (X : forall e, Gd h e -> Gd (set_doc i d' h) e).
            { apply Gd_coind. intros x Gx. destruct (Nat.eq_dec x i) as [->|Ne].
              - split; auto. intros dx k s Lx I. rewrite set_doc_eq in Lx. injection Lx as <-. exact (Gd_sub _ _ _ _ _ Gx W L I).
              - split.
                + destruct (Gd_cur _ _ Gx) as (de & f' & Le & Re). exists de, f'. rewrite set_doc_neq by auto. auto.
                + intros dx k s Lx I. rewrite set_doc_neq in Lx by auto. eapply Gd_sub; eauto. }
            auto.
        + set (d' := {| src := src d; loaded := false; mtime := Some (fmtime f); held := None; includes := nil; subs := subs d; parent := parent d |}).
          split; [apply WF_note; eapply WF_set; eauto; intros k e I; exact (wf_subs _ W _ _ _ _ L I)|].
          split; [|split; [|discriminate]].
          * intros j dj Lj. apply (TI_set h i d' T) with (j := j); auto. unfold d'. split; cbn; [|discriminate].
            intros m E. injection E as <-. eapply Hfs; eauto.
          * destruct (grows_set i h d' d L eq_refl eq_refl) as [A B]. split; auto.
      - cbn [fst snd]. split; auto. split; auto. split; [apply grows_refl|]. intros _ _. split; auto.
        unfold load_required in Q. apply orb_false_iff in Q. destruct Q as [Q1 Q2]. apply negb_false_iff in Q1.
        destruct (T _ _ L) as [_ X]. destruct (X Q1) as (m & Em & Hm). rewrite Em in Q2. apply orb_false_iff in Q2. destruct Q2 as [Q2 _].
        apply N.ltb_ge in Q2. destruct (Hm _ F Q2). exists d, f. auto. }
    clearbody rd. destruct rd as [h1 r1]. cbn [fst snd] in R. destruct R as (W1 & T1 & G1 & P1). unfold andthen at 1. cbn [fst snd].
    destruct r1 as [[]|x]; [|unfold keptp, kept; cbn [fst snd]; split; auto; split; auto; split; auto; discriminate].
    destruct (P1 _ eq_refl) as [P2 C1]. clear P1.
    destruct (gr_src _ _ _ G1 _ _ L) as (d1 & L1 & S1 & _). rewrite L1.
    set (h2 := set_doc i (set_subs nil d1) h1).
    assert (W2 : WF h2) by (eapply WF_set; eauto; intros k e []).
    assert (T2 : TI h2) by (apply TI_set; auto; destruct (T1 _ _ L1) as [A B]; split; cbn; auto).
    assert (G2 : grows i h1 h2) by (now apply (grows_set i h1 _ d1)).
    assert (X2 : (forall e, Gd h1 e -> Gd h2 e) /\ Gd h2 i).
    { apply Gd_set; auto; [|intros k s []]. destruct C1 as (d' & f' & L' & R). assert (d' = d1) as -> by congruence. exists (set_subs nil d1), f'. rewrite set_doc_eq. auto. }
    destruct X2 as [X2 X3].
    assert (D2 : forall p e, lookup p (documents_dict h1 i) = Some e -> p <> src d1 -> i < e /\ exists ed, lookup e (docs h2) = Some ed /\ src ed = p).
    { intros p e Lp Np. apply dd_values in Lp; auto. destruct Lp as (Te & ed & Le & Se).
      assert (Ne : e <> i) by (intros ->; congruence). split; [now apply (tree_proper h1)|].
      exists ed. unfold h2. rewrite set_doc_neq by auto. auto. }
    pose proof (load_each_kept (load fs root n) (fun i h W T E => IH i h W T E) i (src d1) (documents_dict h1 root) (documents_dict h1 i) (includes d1) h2 (set_subs nil d1) W2 T2 (set_doc_eq _ _ _) eq_refl D2) as (W3 & T3 & G3 & P3).
    destruct (load_each _ _ _ _ _ _ _ h2) as [h3 r3]. cbn [fst snd] in *. unfold andthen. cbn [fst snd].
    assert (G13 : grows i h h3) by (eapply grows_trans; [exact G1|eapply grows_trans; eauto]).
    destruct r3 as [b3|x]; [|unfold keptp, kept; cbn [fst snd]; split; auto; split; auto; split; auto; discriminate].
    assert (Gi : Gd h3 i) by (eapply P3; eauto).
    destruct (update_mtime_kept h3 i W3 T3 Gi) as (W4 & T4 & G4 & P4 & _).
    unfold keptp, kept. cbn [fst snd]. split; auto. split; auto. split; [eapply grows_trans; eauto|]. intros _ _. split; [|auto].
    intros e Ge. apply P4. eapply P3; eauto.
Qed.
End Load.

(** ** First loads *)
Definition at_ (h : heap) (j : nat) : path := match lookup j (docs h) with Some d => src d | None => mkpath false nil end.
Section First.
Variables (fs : files) (root : nat) (now : N).
Hypothesis Hfs : forall p f, lookup p fs = Some f -> (fmtime f <= now)%N.
Hypothesis Hnd : forall p f, lookup p fs = Some f -> NoDup (fincludes f).
Notation TI := (TI fs now).
Notation Gd := (Gd fs).

Lemma at_grows i h h' j : WF h -> grows i h h' -> j < length (docs h) -> at_ h' j = at_ h j.
Proof.
  intros W G Hj. apply (num_lookup h j (wf_num _ W)) in Hj. destruct Hj as [d L]. destruct (gr_src _ _ _ G _ _ L) as (d' & L' & S & _).
  unfold at_. now rewrite L, L'.
Qed.
Lemma grows_len i h h' : WF h -> WF h' -> grows i h h' -> length (docs h) <= length (docs h').
Proof.
  intros W W' G. destruct (Nat.le_gt_cases (length (docs h)) (length (docs h'))) as [|C]; auto. exfalso.
  apply (num_lookup h (length (docs h')) (wf_num _ W)) in C. destruct C as [d L]. destruct (gr_src _ _ _ G _ _ L) as (d' & L' & _). apply wf_lt in L'; auto. lia.
Qed.

(** What the first load of [i] gives *)
Record first (i : nat) (h h' : heap) : Prop := {
  o_inc : forall e de q, in_tree h' i e -> lookup e (docs h') = Some de -> In q (includes de) -> srcs_of h' i q \/ srcs_of h root q;
  o_reach : forall e, in_tree h' i e -> reach fs (at_ h i) (at_ h' e);
  o_loads : loads h' = rev (map (at_ h') (seq i (length (docs h') - i))) ++ loads h;
  o_par : forall j dj, i < j -> lookup j (docs h') = Some dj -> exists p, parent dj = Some p /\ i <= p < j /\ edge fs (at_ h' p) (src dj);
  o_uni : forall a b da db, i < a -> i < b -> lookup a (docs h') = Some da -> lookup b (docs h') = Some db -> parent da = parent db -> src da = src db -> a = b }.

(** The state between two sub-documents of [i]; [h1] is the heap at the beginning *)
Record Fr (i : nat) (own : path) (incs : list path) (h1 h : heap) (done : list path) : Prop := {
  f_wf : WF h; f_ti : TI h; f_gd : Gd h i; f_grow : grows i h1 h;
  f_doc : exists d, lookup i (docs h) = Some d /\ src d = own /\ includes d = incs /\ forall k, In k (keys (subs d)) -> In k done;
  f_inc : forall e de q, in_tree h i e -> e <> i -> lookup e (docs h) = Some de -> In q (includes de) -> srcs_of h i q \/ srcs_of h1 root q;
  f_done : forall q, In q done -> srcs_of h i q \/ srcs_of h1 root q;
  f_reach : forall e, in_tree h i e -> reach fs own (at_ h e);
  f_loads : loads h = rev (map (at_ h) (seq (S i) (length (docs h) - S i))) ++ loads h1;
  f_par : forall j dj, i < j -> lookup j (docs h) = Some dj -> exists p, parent dj = Some p /\ i <= p < j /\ edge fs (at_ h p) (src dj);
  f_uni : forall a b da db, i < a -> i < b -> lookup a (docs h) = Some da -> lookup b (docs h) = Some db -> parent da = parent db -> src da = src db -> a = b;
  f_child : forall j dj, i < j -> lookup j (docs h) = Some dj -> parent dj = Some i -> In (src dj) done }.

Definition closed_below (i : nat) (h : heap) : Prop := forall j dj k e, j < i -> lookup j (docs h) = Some dj -> In (k, e) (subs dj) -> e < i.
Lemma srcs_low i h h' k r : WF h -> r < i -> closed_below i h -> grows i h h' -> srcs_of h r k <-> srcs_of h' r k.
Proof.
  intros W Hr C G.
  assert (T : forall a e, a < i -> in_tree h a e <-> in_tree h' a e).
  { apply (tree_frame h h' (fun j => j < i)).
    - intros j Hj. now rewrite (gr_low _ _ _ G).
    - intros j d k' e Hj L I. eapply C; eauto. }
  assert (B : forall a e, a < i -> in_tree h a e -> e < i).
  { intros a e Ha Te. revert Ha. induction Te as [|a d k' s e L I Te IH]; intros Ha; auto. apply IH. eapply C; eauto. }
  split; intros (e & d & Te & L & S).
  - exists e, d. split; [apply T; auto|]. rewrite (gr_low _ _ _ G); eauto.
  - apply T in Te; auto. exists e, d. split; auto. rewrite <- (gr_low _ _ _ G); eauto.
Qed.

Section Each.
Variable ld : nat -> heap -> out bool.
Hypothesis Hkeep : forall i h, WF h -> TI h -> (exists d, lookup i (docs h) = Some d) -> kept fs now i h (fst (ld i h)) (snd (ld i h)).
Hypothesis Hfirst : forall i h d b, WF h -> TI h -> length (docs h) = S i -> lookup i (docs h) = Some d -> subs d = nil -> loaded d = false -> root <= i -> closed_below i h ->
  snd (ld i h) = Ok b -> first i h (fst (ld i h)).
Variables (i : nat) (own : path) (incs : list path) (h1 : heap) (f : file).
Hypothesis W1 : WF h1.
Hypothesis N1 : length (docs h1) = S i.
Hypothesis Hroot : root <= i.
Hypothesis Hcl : closed_below i h1.
Hypothesis Hown : lookup own fs = Some f.
Hypothesis Hincs : fincludes f = incs.
Variables (root_dict subs_dict : dict path nat).
Hypothesis Hrd : forall k, In k (keys root_dict) <-> srcs_of h1 root k.
Hypothesis Hsd : forall k, k <> own -> lookup k subs_dict = None.

Lemma load_each_first ps : forall done h b, Fr i own incs h1 h done -> done ++ ps = incs ->
  snd (load_each fs ld i own root_dict subs_dict ps h) = Ok b -> Fr i own incs h1 (fst (load_each fs ld i own root_dict subs_dict ps h)) (done ++ ps).
Proof.
  assert (Nd : NoDup incs) by (rewrite <- Hincs; eapply Hnd; eauto).
  induction ps as [|p ps IH]; intros done h b0 F E H; cbn [load_each] in *; [now rewrite app_nil_r|].
  assert (E' : (done ++ [p]) ++ ps = incs) by (rewrite <- app_assoc; exact E).
  assert (Edone : done ++ p :: ps = (done ++ [p]) ++ ps) by (rewrite <- app_assoc; reflexivity).
  assert (Skip : (srcs_of h i p \/ srcs_of h1 root p) -> Fr i own incs h1 h (done ++ [p])).
  { intros Hp. destruct F. split; auto.
    - destruct f_doc0 as (d & A1 & A2 & A3 & A4). exists d. split; auto. split; auto. split; auto. intros k Hk. apply in_or_app. auto.
    - intros q Hq. apply in_app_or in Hq as [Hq|[<-|[]]]; auto.
    - intros j dj Hj Lj Pj. apply in_or_app. eauto. }
  destruct (eqb_spec p own) as [Ep|Np].
  { rewrite Edone. eapply IH; eauto. apply Skip. left. destruct (f_doc _ _ _ _ _ _ F) as (d & A1 & A2 & _). exists i, d. split; [eapply tree_self; eauto|]. subst. auto. }
  rewrite (Hsd p Np) in *. destruct (has p root_dict) eqn:Hp.
  { rewrite Edone. eapply IH; eauto. apply Skip. right. apply Hrd. now apply has_keys. }
  destruct F as [W T Gi G Fdoc Finc Fdone Freach Floads Fpar Funi Fchild].
  destruct Fdoc as (d & Ld & Sd & Id & Kd).
  pose proof (WF_add fs h p (Some i) W) as A. destruct (add_doc fs p (Some i) h) as [e h2] eqn:Ea. destruct A as (W2 & Ei & N2 & Lnew & Low).
  assert (Lt : i < e) by (rewrite Ei; apply (wf_lt _ _ _ W Ld)).
  assert (T2 : TI h2).
  { intros j dj Lj. destruct (Nat.lt_ge_cases j e) as [Hj|Hj].
    - rewrite Low in Lj by auto. eapply T; eauto.
    - assert (j = e) as -> by (pose proof (wf_lt _ _ _ W2 Lj); lia). rewrite Lnew in Lj. injection Lj as <-. split; cbn; [|discriminate].
      intros m Em. destruct (lookup p fs) as [fp|] eqn:Lf; [|discriminate]. injection Em as <-. eapply Hfs; eauto. }
  assert (G2 : grows e h h2).
  { split; [exact Low|]. intros j dj Lj. exists dj. rewrite Low by (rewrite Ei; apply (wf_lt _ _ _ W Lj)). auto. }
  assert (Cl2 : closed_below e h2).
  { intros j dj k x Hj Lj I. rewrite Low in Lj by auto. destruct (wf_subs _ W _ _ _ _ Lj I) as (_ & ed & Lx & _). rewrite Ei. apply (wf_lt _ _ _ W Lx). }
  assert (P2 : forall x, Gd h x -> Gd h2 x).
  { apply Gd_coind. intros x Gx. pose proof (Gd_cur _ _ _ Gx) as (dx & fx & Lx & R). pose proof (wf_lt _ _ _ W Lx) as Hx. rewrite <- Ei in Hx. split.
    - exists dx, fx. rewrite Low by auto. auto.
    - intros d' k s L' I. rewrite Low in L' by auto. eapply Gd_sub; eauto. }
  pose proof (Hkeep e h2 W2 T2 (ex_intro _ _ Lnew)) as (W3 & T3 & G3 & K3).
  pose proof (fun b => Hfirst e h2 _ b W2 T2 N2 Lnew eq_refl eq_refl ltac:(lia) Cl2) as F3.
  unfold andthen in *. destruct (ld e h2) as [h3 [b3|x]]; cbn [fst snd] in *; [|discriminate].
  destruct (K3 _ eq_refl) as [K4 K5]. specialize (F3 _ eq_refl). clear K3.
  assert (G23 : grows e h h3) by (eapply grows_trans; eauto).
  assert (L3 : lookup i (docs h3) = Some d) by (rewrite (gr_low _ _ _ G3), Low; auto; lia).
  assert (Led : exists ed, lookup e (docs h3) = Some ed /\ src ed = p /\ parent ed = Some i).
  { destruct (gr_src _ _ _ G3 _ _ Lnew) as (ed & A1 & A2 & A3). eauto. }
  destruct Led as (ed & Led & Sed & Ped).
  set (d4 := set_subs (set p e (subs d)) d).
  assert (E4 : add_sub i p e h3 = set_doc i d4 h3) by (unfold add_sub, upd; now rewrite L3).
  rewrite E4 in *. set (h4 := set_doc i d4 h3) in *.
  assert (Np' : ~ In p done).
  { rewrite <- E in Nd. apply NoDup_remove_2 in Nd. intros C. apply Nd. apply in_or_app. now left. }
  assert (S4 : subs d4 = subs d ++ [(p, e)]).
  { cbn. apply set_new. apply has_false. auto. }
  assert (W4 : WF h4) by (apply WF_add_sub; eauto).
  assert (Lo4 : forall j, j <> i -> lookup j (docs h4) = lookup j (docs h3)) by (intros; now apply set_doc_neq).
  assert (Li4 : lookup i (docs h4) = Some d4) by apply set_doc_eq.
  assert (G34 : grows i h3 h4) by (now apply (grows_set i h3 _ d)).
  assert (G4 : grows i h1 h4).
  { eapply grows_trans; [exact G|]. eapply grows_trans; [apply (grows_weak i e); [lia|exact G23]|exact G34]. }
  assert (Cd : current fs h4 i).
  { destruct (Gd_cur _ _ _ Gi) as (d0 & f0 & L0 & R). assert (d0 = d) as -> by congruence. exists d4, f0. rewrite Li4. auto. }
  assert (P4 : (forall x, Gd h3 x -> Gd h4 x) /\ Gd h4 i).
  { apply Gd_set; auto. rewrite S4. intros k s I. apply in_app_or in I as [I|[I|[]]].
    - apply K4, P2. exact (Gd_sub _ _ _ _ _ _ Gi W Ld I).
    - injection I as <- <-. exact K5. }
  (* trees *)
  assert (TA : forall s x, i < s -> in_tree h3 s x <-> in_tree h4 s x).
  { apply (tree_frame h3 h4 (fun j => i < j)).
    - intros j Hj. rewrite Lo4 by lia. reflexivity.
    - intros j dj k x Hj Lj I. destruct (wf_subs _ W3 _ _ _ _ Lj I). lia. }
  assert (TB : forall s x, s < e -> in_tree h s x <-> in_tree h3 s x).
  { apply (tree_frame h h3 (fun j => j < e)).
    - intros j Hj. rewrite (gr_low _ _ _ G23) by auto. reflexivity.
    - intros j dj k x Hj Lj I. destruct (wf_subs _ W _ _ _ _ Lj I) as (_ & dx & Lx & _). rewrite Ei. apply (wf_lt _ _ _ W Lx). }
  assert (TC : forall x, in_tree h4 i x <-> in_tree h i x \/ in_tree h3 e x).
  { intros x. split.
    - intros Tx. destruct (tree_inv _ _ _ _ Tx Li4) as [->|(k & s & I & Ts)].
      + left. eapply tree_self; eauto.
      + rewrite S4 in I. apply in_app_or in I as [I|[I|[]]].
        * left. destruct (wf_subs _ W _ _ _ _ Ld I) as (Ls & ds & Lds & _). eapply tree_sub; eauto. apply TB; [rewrite Ei; apply (wf_lt _ _ _ W Lds)|]. apply TA; auto.
        * injection I as <- <-. right. apply TA; auto.
    - intros [Tx|Tx].
      + destruct (tree_inv _ _ _ _ Tx Ld) as [->|(k & s & I & Ts)]; [eapply tree_self; eauto|].
        destruct (wf_subs _ W _ _ _ _ Ld I) as (Ls & ds & Lds & _). eapply (tree_sub _ _ _ k s); eauto; [rewrite S4; apply in_or_app; now left|].
        apply TA; auto. apply TB; auto. rewrite Ei. apply (wf_lt _ _ _ W Lds).
      + eapply (tree_sub _ _ _ p e); eauto; [rewrite S4; apply in_or_app; right; now left|]. apply TA; auto. }
  assert (low_e : forall x, in_tree h i x -> x < e) by (intros x Tx; apply tree_doc in Tx; destruct Tx as [dx Lx]; rewrite Ei; apply (wf_lt _ _ _ W Lx)).
  assert (lk : forall x dx, x < e -> x <> i -> lookup x (docs h) = Some dx -> lookup x (docs h4) = Some dx).
  { intros x dx Hx Nx Lx. rewrite Lo4 by auto. now rewrite (gr_low _ _ _ G23). }
  assert (SA : forall q, srcs_of h i q -> srcs_of h4 i q).
  { intros q (x & dx & Tx & Lx & Sx). destruct (Nat.eq_dec x i) as [->|Nx].
    - exists i, d4. split; [eapply tree_self; eauto|]. split; auto. assert (dx = d) as -> by congruence. exact Sx.
    - exists x, dx. split; [apply TC; auto|]. split; auto. }
  assert (SB : forall q, srcs_of h3 e q -> srcs_of h4 i q).
  { intros q (x & dx & Tx & Lx & Sx). exists x, dx. split; [apply TC; auto|]. split; auto. rewrite Lo4; auto. pose proof (tree_le _ _ _ W3 Tx). lia. }
  assert (SR : forall q, srcs_of h2 root q -> srcs_of h4 i q \/ srcs_of h1 root q).
  { intros q Hq. destruct (Nat.eq_dec root i) as [Er|Nr].
    - left. apply SA. rewrite <- Er. apply (srcs_low e h h2 q root W); auto; [lia|].
      intros j dj k x Hj Lj I. destruct (wf_subs _ W _ _ _ _ Lj I) as (_ & dx & Lx & _). rewrite Ei. apply (wf_lt _ _ _ W Lx).
    - right. apply (srcs_low i h1 h2 q root W1); auto; [lia|]. eapply grows_trans; [exact G|apply (grows_weak i e); [lia|exact G2]]. }
  assert (At : forall x, x < length (docs h3) -> at_ h4 x = at_ h3 x).
  { intros x Hx. destruct (Nat.eq_dec x i) as [->|Nx]; [unfold at_; now rewrite L3, Li4|]. unfold at_. now rewrite Lo4. }
  assert (At3 : forall x, x < e -> at_ h3 x = at_ h x) by (intros x Hx; unfold at_; now rewrite (gr_low _ _ _ G23)).
  assert (N34 : length (docs h4) = length (docs h3)) by (eapply set_doc_num; eauto; apply W3).
  assert (Ne3 : e < length (docs h3)) by (apply (wf_lt _ _ _ W3 Led)).
  rewrite Edone. destruct (load_each fs ld i own root_dict subs_dict ps h4) as [h5 [b5|x]] eqn:E5; cbn [fst snd] in *; [|discriminate].
  assert (F4 : Fr i own incs h1 h4 (done ++ [p])).
  2:{ specialize (IH (done ++ [p]) h4 b5 F4 E'). rewrite E5 in IH. cbn [fst snd] in IH. exact (IH eq_refl). }
  split; auto.
  - intros j dj Lj. unfold h4 in Lj; rewrite lookup_set_doc in Lj. destruct (eqb j i); [|eapply T3; eauto]. injection Lj as <-. destruct (T _ _ Ld) as [A B]. split; cbn; auto.
  - apply P4.
  - exists d4. split; auto. split; auto. split; auto. rewrite S4. intros k Hk. unfold keys in Hk. rewrite map_app in Hk. apply in_app_or in Hk as [Hk|[<-|[]]]; apply in_or_app; auto. right. now left.
  - intros x dx q Tx Nx Lx Iq. apply TC in Tx as [Tx|Tx].
    + destruct (tree_doc _ _ _ Tx) as [dx' Lx']. pose proof (lk _ _ (low_e _ Tx) Nx Lx') as X. assert (dx' = dx) as -> by congruence.
      destruct (Finc _ _ _ Tx Nx Lx' Iq); auto.
    + assert (Lx3 : lookup x (docs h3) = Some dx) by (rewrite <- Lo4; auto).
      destruct (o_inc _ _ _ F3 _ _ _ Tx Lx3 Iq) as [Hq|Hq]; auto.
  - intros q Hq. apply in_app_or in Hq as [Hq|[<-|[]]].
    + destruct (Fdone _ Hq); auto.
    + left. apply SB. exists e, ed. split; [eapply tree_self; eauto|]. auto.
  - intros x Tx. apply TC in Tx as [Tx|Tx].
    + pose proof (low_e _ Tx). rewrite At, At3 by lia. auto.
    + assert (Hx : x < length (docs h3)) by (destruct (tree_doc _ _ _ Tx) as [dx Lx]; apply (wf_lt _ _ _ W3 Lx)).
      rewrite At by auto. pose proof (o_reach _ _ _ F3 _ Tx) as R. unfold at_ at 1 in R. rewrite Lnew in R. cbn in R.
      eapply reach_step; [|exact R]. exists f. split; auto. rewrite Hincs, <- E. apply in_or_app. right. now left.
  - rewrite N34. cbn [set_doc loads] in *. change (loads h4) with (loads h3). rewrite (o_loads _ _ _ F3).
    assert (loads h2 = loads h) as ->. { unfold add_doc in Ea. injection Ea as _ <-. reflexivity. }
    rewrite Floads, app_assoc. f_equal. rewrite <- rev_app_distr. f_equal.
    assert (Esq : seq (S i) (length (docs h3) - S i) = seq (S i) (length (docs h) - S i) ++ seq e (length (docs h3) - e)).
    { rewrite <- Ei. replace (length (docs h3) - S i) with ((e - S i) + (length (docs h3) - e)) by lia. rewrite seq_app. f_equal. f_equal. lia. }
    rewrite Esq, map_app. f_equal; apply map_ext_in; intros x Hx; apply in_seq in Hx.
    + rewrite At, At3 by lia. reflexivity.
    + rewrite At by lia. reflexivity.
  - intros j dj Hj Lj. rewrite Lo4 in Lj by lia. destruct (Nat.lt_ge_cases j e) as [He|He].
    + rewrite (gr_low _ _ _ G23) in Lj by auto. destruct (Fpar _ _ Hj Lj) as (q & A1 & A2 & A3). exists q. split; auto. split; auto. rewrite At, At3 by lia. exact A3.
    + destruct (Nat.eq_dec j e) as [->|Nj].
      * assert (dj = ed) as -> by congruence. exists i. split; auto. split; [lia|]. rewrite At by lia. rewrite Sed. unfold at_. rewrite L3, Sd. exists f. split; auto. rewrite Hincs, <- E. apply in_or_app. right. now left.
      * destruct (o_par _ _ _ F3 j dj ltac:(lia) Lj) as (q & A1 & A2 & A3). exists q. split; auto. split; [lia|]. rewrite At; auto. pose proof (wf_lt _ _ _ W3 Lj). lia.
  - assert (Low' : forall a da, i < a -> a < e -> lookup a (docs h4) = Some da -> lookup a (docs h) = Some da).
    { intros a da Ha1 Ha2 La. rewrite Lo4 in La by lia. now rewrite (gr_low _ _ _ G23) in La. }
    assert (Half : forall a b da db, i < a -> a < e -> e <= b -> lookup a (docs h4) = Some da -> lookup b (docs h4) = Some db -> parent da = parent db -> src da = src db -> False).
    { intros a b da db Ha1 Ha2 Hb La Lb Ep Es. apply Low' in La; auto. destruct (Fpar _ _ Ha1 La) as (q & A1 & A2 & _). rewrite Lo4 in Lb by lia.
      destruct (Nat.eq_dec b e) as [->|Nb].
      - assert (db = ed) as -> by congruence. assert (q = i) by congruence. subst q. apply Np'. rewrite <- Sed, <- Es. eapply Fchild; eauto.
      - destruct (o_par _ _ _ F3 b db ltac:(lia) Lb) as (q' & B1 & B2 & _). assert (q = q') by congruence. lia. }
    intros a b da db Ha Hb La Lb Ep Es. destruct (Nat.lt_ge_cases a e) as [Hae|Hae], (Nat.lt_ge_cases b e) as [Hbe|Hbe].
    + apply Low' in La, Lb; auto. eapply Funi; eauto.
    + exfalso. eapply (Half a b); eauto.
    + exfalso. eapply (Half b a); eauto.
    + rewrite Lo4 in La, Lb by lia. destruct (Nat.eq_dec a e) as [->|Na], (Nat.eq_dec b e) as [->|Nb]; auto.
      * exfalso. destruct (o_par _ _ _ F3 b db ltac:(lia) Lb) as (q' & B1 & B2 & _). assert (da = ed) as -> by congruence. assert (q' = i) by congruence. lia.
      * exfalso. destruct (o_par _ _ _ F3 a da ltac:(lia) La) as (q' & B1 & B2 & _). assert (db = ed) as -> by congruence. assert (q' = i) by congruence. lia.
      * apply (o_uni _ _ _ F3 a b da db); auto; lia.
  - intros j dj Hj Lj Pj. rewrite Lo4 in Lj by lia. apply in_or_app. destruct (Nat.lt_ge_cases j e) as [He|He].
    + left. rewrite (gr_low _ _ _ G23) in Lj by auto. eapply Fchild; eauto.
    + destruct (Nat.eq_dec j e) as [->|Nj].
      * right. left. assert (dj = ed) as -> by congruence. congruence.
      * exfalso. destruct (o_par _ _ _ F3 j dj ltac:(lia) Lj) as (q' & B1 & B2 & _). assert (q' = i) by congruence. lia.
Qed.
End Each.

(** A document that is loaded for the first time, after it is read *)
Definition doc_read (d : doc) (f : file) : doc :=
  {| src := src d; loaded := true; mtime := Some (fmtime f); held := Some (contents f); includes := fincludes f; subs := subs d; parent := parent d |}.
Lemma read_good i d f h : small f = true -> good f = true -> read i d f h = (note_load (src d) (set_doc i (doc_read d f) h), Ok tt).
Proof. intros S G. unfold read. now rewrite S, G. Qed.
Record start (i : nat) (h : heap) (d : doc) (f : file) : Prop := {
  s_wf : WF h; s_ti : TI h; s_doc : lookup i (docs h) = Some d; s_subs : subs d = nil; s_file : lookup (src d) fs = Some f }.
Lemma after_read i h d f : start i h d f ->
  let h1 := note_load (src d) (set_doc i (doc_read d f) h) in
  let h2 := set_doc i (set_subs nil (doc_read d f)) h1 in
  WF h1 /\ TI h1 /\ lookup i (docs h1) = Some (doc_read d f) /\ grows i h h1 /\ length (docs h1) = length (docs h) /\
  WF h2 /\ TI h2 /\ Gd h2 i /\ grows i h1 h2 /\ length (docs h2) = length (docs h) /\
  (forall r k, srcs_of h1 r k <-> srcs_of h r k) /\ (forall x, in_tree h2 i x -> x = i) /\
  (forall k, k <> src d -> lookup k (documents_dict h1 i) = None).
Proof.
  intros [W T L Sb F]. cbv zeta.
  set (h1 := note_load (src d) (set_doc i (doc_read d f) h)). set (h2 := set_doc i (set_subs nil (doc_read d f)) h1).
  assert (W1 : WF h1). { apply WF_note. eapply WF_set; eauto. cbn. rewrite Sb. intros k e []. }
  assert (L1 : lookup i (docs h1) = Some (doc_read d f)) by (unfold h1; cbn [note_load docs]; apply set_doc_eq).
  assert (Lo1 : forall j, j <> i -> lookup j (docs h1) = lookup j (docs h)) by (intros; unfold h1; cbn [note_load docs]; now apply set_doc_neq).
  assert (Td : timed fs now (doc_read d f)).
  { split; cbn.
    - intros m E. injection E as <-. eapply Hfs; eauto.
    - intros _. exists (fmtime f). split; auto. intros f' F' _. assert (f' = f) as -> by congruence. auto. }
  assert (T1 : TI h1). { intros j dj Lj. apply (TI_set fs now h i (doc_read d f) T Td) with (j := j). exact Lj. }
  assert (N1 : length (docs h1) = length (docs h)) by (unfold h1; cbn [note_load docs]; eapply set_doc_num; eauto; apply W).
  assert (G1 : grows i h h1).
  { destruct (grows_set i h (doc_read d f) d L eq_refl eq_refl) as [A B]. split; auto. }
  assert (W2 : WF h2) by (eapply WF_set; eauto; intros k e []).
  assert (L2 : lookup i (docs h2) = Some (set_subs nil (doc_read d f))) by apply set_doc_eq.
  assert (tr2 : forall x, in_tree h2 i x -> x = i).
  { intros x Tx. destruct (tree_inv _ _ _ _ Tx L2) as [->|(k & s & [] & _)]; auto. }
  split; auto. split; auto. split; auto. split; auto. split; auto. split; auto. split; [|split; [|split; [|split; [|split; [|split; [auto|]]]]]].
  - intros j dj Lj. apply (TI_set fs now h1 i (set_subs nil (doc_read d f)) T1) with (j := j); auto.
  - split; [eauto|]. intros x Tx. rewrite (tr2 _ Tx). exists (set_subs nil (doc_read d f)), f. split; auto.
  - now apply (grows_set i h1 _ (doc_read d f)).
  - unfold h2. rewrite <- N1. eapply set_doc_num; eauto. apply W1.
  - intros r k.
    assert (X : forall a e, in_tree h a e <-> in_tree h1 a e).
    { intros a e. apply (tree_frame h h1 (fun _ => True)); auto. intros j _. destruct (Nat.eq_dec j i) as [->|Nj]; [now rewrite L, L1|now rewrite Lo1]. }
    split; intros (e & de & Te & Le & Se).
    + destruct (Nat.eq_dec e i) as [->|Ne]; [exists i, d|exists e, de; rewrite <- Lo1 by auto]; (split; [now apply X|]); split; auto.
      assert (de = doc_read d f) as -> by congruence. exact Se.
    + destruct (Nat.eq_dec e i) as [->|Ne]; [exists i, (doc_read d f)|exists e, de; rewrite Lo1 by auto]; (split; [now apply X|]); split; auto.
      assert (de = d) as -> by congruence. exact Se.
  - intros k Nk. destruct (lookup k (documents_dict h1 i)) as [e|] eqn:E; auto. exfalso. apply dd_values in E; auto. destruct E as (Te & de & Le & Se).
    destruct (tree_inv _ _ _ _ Te L1) as [->|(k' & s & I & _)]; [assert (de = doc_read d f) as -> by congruence; cbn in Se; congruence|].
    cbn in I. rewrite Sb in I. contradiction.
Qed.

Lemma load_first n : forall i h d b, WF h -> TI h -> length (docs h) = S i -> lookup i (docs h) = Some d -> subs d = nil -> loaded d = false -> root <= i -> closed_below i h ->
  snd (load fs root n i h) = Ok b -> first i h (fst (load fs root n i h)).
Proof.
  induction n as [|n IH]; intros i h d b W T N L Sb Ld Hr Cl H; [discriminate|]. cbn [load] in *. rewrite L in *.
  destruct (lookup (src d) fs) as [f|] eqn:F; [|discriminate].
  assert (Q : load_required h d f = true) by (unfold load_required; now rewrite Ld). rewrite Q in *.
  destruct (small f) eqn:Sm; [|unfold andthen, read in H; rewrite Sm in H; discriminate].
  destruct (good f) eqn:Gf; [|unfold andthen, read in H; rewrite Sm, Gf in H; discriminate].
  rewrite (read_good _ _ _ _ Sm Gf) in *.
  destruct (after_read i h d f (Build_start _ _ _ _ W T L Sb F)) as (W1 & T1 & L1 & G1 & N1 & W2 & T2 & Gd2 & G2 & N2 & SR & TR & DD).
  set (h1 := note_load (src d) (set_doc i (doc_read d f) h)) in *.
  unfold andthen in *. cbn [fst snd] in *. rewrite L1 in *. cbn [doc_read src includes] in *.
  set (h2 := set_doc i (set_subs nil (doc_read d f)) h1) in *.
  assert (L2 : lookup i (docs h2) = Some (set_subs nil (doc_read d f))) by apply set_doc_eq.
  assert (Cl1 : closed_below i h1). { intros j dj k e Hj Lj I. rewrite (gr_low _ _ _ G1) in Lj by auto. eapply Cl; eauto. }
  assert (F0 : Fr i (src d) (fincludes f) h1 h2 nil).
  { split; auto.
    - exists (set_subs nil (doc_read d f)). split; auto.
    - intros e de q Te Ne. apply TR in Te. contradiction.
    - intros q [].
    - intros e Te. apply TR in Te. subst e. unfold at_. rewrite L2. apply reach_refl.
    - rewrite N2, N. replace (S i - S i) with 0 by lia. reflexivity.
    - intros j dj Hj Lj. exfalso. pose proof (wf_lt _ _ _ W2 Lj). lia.
    - intros a b' da db Ha Hb La. exfalso. pose proof (wf_lt _ _ _ W2 La). lia.
    - intros j dj Hj Lj. exfalso. pose proof (wf_lt _ _ _ W2 Lj). lia. }
  pose proof (load_each_first (load fs root n) (fun i h W T E => load_kept fs root now Hfs n i h W T E) (fun i h d b A1 A2 A3 A4 A5 A6 A7 A8 => IH i h d b A1 A2 A3 A4 A5 A6 A7 A8)
    i (src d) (fincludes f) h1 f W1 (eq_trans N1 N) Hr Cl1 F eq_refl (documents_dict h1 root) (documents_dict h1 i) (fun k => dd_keys h1 root k W1) DD (fincludes f) nil h2) as FE.
  destruct (load_each fs (load fs root n) i (src d) (documents_dict h1 root) (documents_dict h1 i) (fincludes f) h2) as [h3 [b3|x]]; cbn [fst snd] in *; [|discriminate].
  specialize (FE b3 F0 eq_refl eq_refl). cbn [app] in FE. destruct FE as [W3 T3 Gd3 G3 (d3 & L3 & Sd3 & Id3 & _) Finc Fdone Freach Floads Fpar Funi Fchild].
  destruct (update_mtime_kept fs now h3 i W3 T3 Gd3) as (W4 & T4 & G4 & _ & N4 & O4 & C4). set (h4 := update_mtime h3 i) in *.
  assert (Lk : forall j d4, lookup j (docs h4) = Some d4 -> exists d3, lookup j (docs h3) = Some d3 /\ src d3 = src d4 /\ includes d3 = includes d4 /\ parent d3 = parent d4).
  { intros j d4 Lj. specialize (C4 j). rewrite Lj in C4. destruct (lookup j (docs h3)) as [dj|]; [|discriminate]. injection C4 as C1 C2 C3 C5 C6 C7. exists dj. auto. }
  assert (TT : forall a e, in_tree h4 a e <-> in_tree h3 a e).
  { intros a e. symmetry. apply (tree_frame h3 h4 (fun _ => True)); auto. intros j _. specialize (C4 j).
    destruct (lookup j (docs h4)), (lookup j (docs h3)); try discriminate; auto. cbn in *. injection C4 as C1 C2 C3 C5 C6 C7. congruence. }
  assert (At : forall j, at_ h4 j = at_ h3 j).
  { intros j. unfold at_. specialize (C4 j). destruct (lookup j (docs h4)), (lookup j (docs h3)); try discriminate; auto. cbn in C4. injection C4 as C1 C2 C3 C5 C6 C7. congruence. }
  assert (SS : forall a k, srcs_of h3 a k -> srcs_of h4 a k).
  { intros a k (e & de & Te & Le & Se). pose proof (C4 e) as Ce. rewrite Le in Ce. destruct (lookup e (docs h4)) as [d4|] eqn:L4; [|discriminate]. injection Ce as C1 C2 C3 C5 C6 C7.
    exists e, d4. split; [now apply TT|]. split; auto. congruence. }
  split.
  - intros e de q Te Le Iq. apply TT in Te. destruct (Lk _ _ Le) as (de3 & Le3 & _ & Ie & _). rewrite <- Ie in Iq.
    assert (X : srcs_of h3 i q \/ srcs_of h1 root q).
    { destruct (Nat.eq_dec e i) as [->|Ne]; [|eapply Finc; eauto]. apply Fdone. assert (de3 = d3) as -> by congruence. now rewrite <- Id3. }
    destruct X as [X|X]; [left; auto|right; now apply SR].
  - intros e Te. apply TT in Te. rewrite At. unfold at_ at 1. rewrite L. auto.
  - rewrite O4, N4, Floads. assert (Hl : loads h1 = src d :: loads h) by reflexivity. rewrite Hl.
    pose proof (wf_lt _ _ _ W3 L3). replace (length (docs h3) - i) with (S (length (docs h3) - S i)) by lia. cbn [seq map rev]. rewrite <- app_assoc. cbn [app].
    f_equal; [f_equal; apply map_ext; auto|]. rewrite At. unfold at_. rewrite L3. congruence.
  - intros j dj Hj Lj. destruct (Lk _ _ Lj) as (dj3 & Lj3 & Sj & _ & Pj). destruct (Fpar _ _ Hj Lj3) as (p & A1 & A2 & A3). exists p. split; [congruence|]. split; auto. rewrite At, <- Sj. exact A3.
  - intros a b' da db Ha Hb La Lb Ep Es. destruct (Lk _ _ La) as (da3 & La3 & Sa & _ & Pa). destruct (Lk _ _ Lb) as (db3 & Lb3 & Sb' & _ & Pb).
    apply (Funi a b' da3 db3); auto; congruence.
Qed.

(** ** Termination *)
Section Ends.
Variable rootp : path.
Hypothesis Hload : loadable fs rootp.
Hypothesis Hac : acyclic fs rootp.

Lemma path_snoc p q r : path_to fs rootp p q -> onward fs rootp q r -> path_to fs rootp p r.
Proof. intros H O. induction H as [p q H|p q s H P IH]; [eapply path_more; [eauto|now apply path_one]|eapply path_more; eauto]. Qed.
Lemma reach_snoc p q r : reach fs p q -> edge fs q r -> reach fs p r.
Proof. intros H E. induction H as [p|p q s H P IH]; [eapply reach_step; [eauto|apply reach_refl]|eapply reach_step; eauto]. Qed.

Lemma load_ends n : forall i h d stack, WF h -> TI h -> lookup i (docs h) = Some d -> subs d = nil -> loaded d = false ->
  (exists rd, lookup root (docs h) = Some rd /\ src rd = rootp) ->
  NoDup (src d :: stack) -> (forall s, In s stack -> path_to fs rootp s (src d)) -> incl (src d :: stack) (keys fs) -> reach fs rootp (src d) ->
  length fs + 1 <= n + length stack -> exists b, snd (load fs root n i h) = Ok b.
Proof.
  induction n as [|n IH]; intros i h d stack W T L Sb Ld Hrd Nd Hst Hin Hre Hn.
  - exfalso. pose proof (NoDup_incl_length Nd Hin) as X. unfold keys in X. rewrite map_length in X. cbn in X. lia.
  - cbn [load]. rewrite L. destruct (Hload _ Hre) as (f & F & Sm & Gf). rewrite F.
    assert (Q : load_required h d f = true) by (unfold load_required; now rewrite Ld). rewrite Q.
    rewrite (read_good _ _ _ _ Sm Gf).
    destruct (after_read i h d f (Build_start _ _ _ _ W T L Sb F)) as (W1 & T1 & L1 & G1 & N1 & W2 & T2 & Gd2 & G2 & N2 & SR & TR & DD).
    set (h1 := note_load (src d) (set_doc i (doc_read d f) h)) in *.
    unfold andthen at 1. cbn [fst snd]. rewrite L1. cbn [doc_read src includes].
    set (h2 := set_doc i (set_subs nil (doc_read d f)) h1) in *.
    assert (Rk : In rootp (keys (documents_dict h1 root))).
    { apply dd_keys; auto. apply SR. destruct Hrd as (rd & Lr & Sr). exists root, rd. split; [eapply tree_self; eauto|auto]. }
    set (rdict := documents_dict h1 root) in *. set (sdict := documents_dict h1 i) in *. clearbody rdict sdict.
    assert (E : exists b, snd (load_each fs (load fs root n) i (src d) rdict sdict (fincludes f) h2) = Ok b).
    2:{ destruct E as [b E]. destruct (load_each _ _ _ _ _ _ _ _) as [h3 r3]. cbn [snd] in E. subst r3. unfold andthen. cbn. eauto. }
    assert (Hr2 : exists rd, lookup root (docs h2) = Some rd /\ src rd = rootp).
    { destruct Hrd as (rd & Lr & Sr). destruct (gr_src _ _ _ G1 _ _ Lr) as (d1 & A1 & A2 & _). destruct (gr_src _ _ _ G2 _ _ A1) as (d2 & B1 & B2 & _). exists d2. split; auto. congruence. }
    assert (Hex : exists d2, lookup i (docs h2) = Some d2) by (eexists; apply set_doc_eq).
    assert (Hps : forall p, In p (fincludes f) -> edge fs (src d) p) by (intros p Hp; exists f; auto).
    clear G2 Gd2 N2 TR Q. clearbody h2. revert h2 W2 T2 Hr2 Hex. revert Hps. generalize (fincludes f) as ps.
    induction ps as [|p ps IHps]; intros Hps h2 W2 T2 Hr2 Hex; cbn [load_each]; [cbn; eauto|].
    assert (Hps' : forall q, In q ps -> edge fs (src d) q) by (intros; apply Hps; now right).
    destruct (eqb_spec p (src d)) as [Ep|Np]; [now apply IHps|]. rewrite (DD _ Np).
    destruct (has p rdict) eqn:Hp; [now apply IHps|]. apply has_false in Hp.
    assert (On : onward fs rootp (src d) p) by (split; [apply Hps; now left|]; split; congruence).
    pose proof (WF_add fs h2 p (Some i) W2) as A. destruct (add_doc fs p (Some i) h2) as [e h3] eqn:Ea. destruct A as (W3 & Ei & N3 & Lnew & Low).
    assert (T3 : TI h3).
    { intros j dj Lj. destruct (Nat.lt_ge_cases j e) as [Hj|Hj].
      - rewrite Low in Lj by auto. eapply T2; eauto.
      - assert (j = e) as -> by (pose proof (wf_lt _ _ _ W3 Lj); lia). rewrite Lnew in Lj. injection Lj as <-. split; cbn; [|discriminate].
        intros m Em. destruct (lookup p fs) as [fp|] eqn:Lf; [|discriminate]. injection Em as <-. eapply Hfs; eauto. }
    assert (Hr3 : exists rd, lookup root (docs h3) = Some rd /\ src rd = rootp).
    { destruct Hr2 as (rd & Lr & Sr). exists rd. split; auto. rewrite Low; auto. rewrite Ei. apply (wf_lt _ _ _ W2 Lr). }
    assert (Hrp : reach fs rootp p) by (eapply reach_snoc; eauto; apply Hps; now left).
    assert (Npst : ~ In p (src d :: stack)).
    { intros [C|C]; [congruence|]. apply (Hac p). eapply path_snoc; [apply Hst; exact C|exact On]. }
    destruct (IH e h3 _ (src d :: stack) W3 T3 Lnew eq_refl eq_refl Hr3) as [b3 E3].
    { constructor; auto. }
    { cbn [new_doc src]. intros s [<-|Hs]; [now apply path_one|]. eapply path_snoc; [apply Hst; exact Hs|exact On]. }
    { cbn [new_doc src]. intros q [<-|Hq]; [|auto]. destruct (Hload _ Hrp) as (fp & Lp & _). eapply lookup_Some_keys; eauto. }
    { exact Hrp. }
    { cbn [length]. lia. }
    pose proof (load_kept fs root now Hfs n e h3 W3 T3 (ex_intro _ _ Lnew)) as (W4 & T4 & G4 & _).
    destruct (load fs root n e h3) as [h4 r4]. cbn [fst snd] in *. subst r4. unfold andthen. cbn [fst snd].
    destruct Hex as [d2 Ld2].
    assert (L4 : lookup i (docs h4) = Some d2).
    { rewrite (gr_low _ _ _ G4), Low; auto; rewrite Ei; apply (wf_lt _ _ _ W2 Ld2). }
    assert (E4 : add_sub i p e h4 = set_doc i (set_subs (set p e (subs d2)) d2) h4) by (unfold add_sub, upd; now rewrite L4). rewrite E4.
    destruct (gr_src _ _ _ G4 _ _ Lnew) as (ed & Led & Sed & _).
    assert (Lt : i < e) by (rewrite Ei; apply (wf_lt _ _ _ W2 Ld2)).
    destruct (IHps Hps' (set_doc i (set_subs (set p e (subs d2)) d2) h4)) as [b5 E5].
    { apply WF_add_sub; auto. exists ed. split; auto. }
    { apply TI_set; auto. destruct (T4 _ _ L4) as [A B]. split; cbn; auto. }
    { destruct Hr3 as (rd & Lr & Sr). destruct (gr_src _ _ _ G4 _ _ Lr) as (rd4 & A1 & A2 & _).
      destruct (gr_src _ _ _ (grows_set i h4 (set_subs (set p e (subs d2)) d2) d2 L4 eq_refl eq_refl) _ _ A1) as (rd5 & B1 & B2 & _). exists rd5. split; auto. congruence. }
    { eexists. apply set_doc_eq. }
    destruct (load_each _ _ _ _ _ _ _ _) as [h5 r5]. cbn [snd fst] in *. subst r5. cbn. eauto.
Qed.
End Ends.
End First.

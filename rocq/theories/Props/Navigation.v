(** Property C41 *)
From Coq Require Import List Bool Arith NArith Lia.
From Verif.Base Require Import Str StrFacts Dict DictFacts ListFacts.
From Verif.Model Require Import Navigation.
From Verif.Spec Require Import Navigation.
From Verif.Proof Require Import Navigation.
Import ListNotations.

(** A tree of documents as it may be: ids and targets are keys *)
Definition tree_ok (docs : list document) : Prop :=
  NoDup (map did docs) /\ forall d, In d docs -> wf (entries d) /\ NoDup (map (strip_c 46) (targets d)).

Lemma NoDup_of_map {A B} (f : A -> B) l : NoDup (map f l) -> NoDup l.
Proof. apply NoDup_map_inv. Qed.

Section Nav.
Variables (docs l1 l2 : list document) (d : document) (labels : list label) (t : str).
Hypothesis Hd : docs = l1 ++ d :: l2.
Hypothesis Hok : tree_ok docs.
Hypothesis Hl : grouped labels.
Hypothesis Ht : In t (targets (last docs d)).

Definition after : document := set_all (ids_by_target docs) (firsts None labels nil) (targets (last docs d)) d.
Lemma last_rev_hd {A} (l : list A) x y r : rev l = y :: r -> last l x = y.
Proof. intros E. assert (D : l = rev (y :: r)) by (rewrite <- E; symmetry; apply rev_involutive). rewrite D. cbn [rev]. apply last_last. Qed.
Lemma nav_after : nth_error (set_navigation docs labels) (length l1) = Some after.
Proof.
  unfold set_navigation. rewrite set_all_map. rewrite nth_error_map, Hd. rewrite nth_error_app2, Nat.sub_diag by auto. cbn [nth_error option_map]. rewrite <- Hd. f_equal.
  unfold after. destruct (rev docs) as [|y r] eqn:E.
  - exfalso. rewrite Hd, rev_app_distr in E. cbn in E. destruct (rev l2); discriminate.
  - now rewrite (last_rev_hd docs d y r E).
Qed.
Lemma after_key w : exists ids0, lookup (key w t) (entries after) = target_of ids0 (firsts None labels nil) d w /\ ids0 = ids t docs.
Proof.
  destruct Hok as [Nd H].
  assert (Il : In (last docs d) docs). { rewrite Hd. destruct l2 as [|x l] using rev_ind; [rewrite last_last; apply in_or_app; right; now left|].
    change (l1 ++ d :: l ++ [x]) with (l1 ++ (d :: l) ++ [x]). rewrite app_assoc, last_last. apply in_or_app. right. now left. }
  exists (ids t docs). split; auto. unfold after. apply set_all_key; auto.
  - apply H. rewrite Hd. apply in_or_app. right. now left.
  - apply (H _ Il).
  - rewrite ids_by_target_spec.
    + assert (N : In (did (last docs d)) (ids t docs)) by (unfold ids; apply in_map; apply filter_In; split; auto; now apply mem_In). destruct (ids t docs); [contradiction|reflexivity].
    + intros x Hx. apply (NoDup_of_map (strip_c 46)). now apply H.
Qed.
Lemma ids_split : In t (targets d) -> ids t docs = ids t l1 ++ did d :: ids t l2.
Proof. intros I. rewrite Hd, ids_app. f_equal. unfold ids. cbn [filter]. now rewrite (proj2 (mem_In _ _) I). Qed.
Lemma not_before : ~ In (did d) (ids t l1).
Proof.
  intros C. apply ids_In in C. destruct C as (x & Hx & Ex & _). destruct Hok as [Nd _]. rewrite Hd, map_app in Nd. cbn in Nd. apply NoDup_remove_2 in Nd. apply Nd. apply in_or_app. left. rewrite <- Ex. now apply in_map.
Qed.
Lemma not_target : ~ In t (targets d) -> ~ In (did d) (ids t docs).
Proof.
  intros N C. apply ids_In in C. destruct C as (x & Hx & Ex & Tx). destruct Hok as [Nd _]. rewrite Hd in Hx. apply in_app_or in Hx. rewrite Hd, map_app in Nd. cbn in Nd. apply NoDup_remove_2 in Nd.
  destruct Hx as [Hx|[->|Hx]]; auto; apply Nd; apply in_or_app; [left|right]; rewrite <- Ex; now apply in_map.
Qed.
End Nav.

(** The links of the documents for the targets of the last document: the next
    (previous, current) entry of a document is the first heading of the next
    (previous, this) document with the target.  Where there is no such document,
    it has no heading, or the document does not have the target itself, there is
    no entry.  Missing: targets the last document does not have. *)
Theorem C41_links_partial docs l1 l2 d labels t :
  docs = l1 ++ d :: l2 -> tree_ok docs -> grouped labels -> In t (targets (last docs d)) ->
  exists d', nth_error (set_navigation docs labels) (length l1) = Some d' /\ did d' = did d /\ targets d' = targets d /\
    (forall l, lookup (link_entry (lit "next") t) (entries d') = Some l <-> In t (targets d) /\ exists e, first_with t l2 e /\ heading labels (did e) l) /\
    (forall l, lookup (link_entry (lit "prev") t) (entries d') = Some l <-> In t (targets d) /\ exists e, last_with t l1 e /\ heading labels (did e) l) /\
    (forall l, lookup (link_entry (lit "curr") t) (entries d') = Some l <-> In t (targets d) /\ heading labels (did d) l).
Proof.
  intros Hd Hok Hl Ht. exists (after docs d labels). split; [now apply (nav_after docs l1 l2)|].
  destruct (set_all_id (ids_by_target docs) (firsts None labels nil) (targets (last docs d)) d) as [A1 A2]. split; auto. split; auto.
  assert (K : forall w, lookup (key w t) (entries (after docs d labels)) = target_of (ids t docs) (firsts None labels nil) d w).
  { intros w. destruct (after_key docs l1 l2 d labels t Hd Hok Ht w) as (i & E & ->). exact E. }
  destruct (mem t (targets d)) eqn:M.
  - change (link_entry (lit "next") t) with (key Next t). change (link_entry (lit "prev") t) with (key Prev t). change (link_entry (lit "curr") t) with (key Curr t).
    apply mem_In in M. pose proof (ids_split docs l1 l2 d t Hd M) as S. pose proof (not_before docs l1 l2 d t Hd Hok) as NB.
    assert (I : index (did d) (ids t docs) = Some (length (ids t l1))) by (rewrite S; now apply index_app).
    split; [|split]; intros l; rewrite K; unfold target_of; rewrite I; cbn [rel].
    + rewrite S, nth_error_app2 by lia. replace (Datatypes.S (length (ids t l1)) - length (ids t l1)) with 1 by lia. cbn [nth_error].
      destruct (ids t l2) as [|i r] eqn:E2.
      * split; [discriminate|]. intros (_ & e & He & _). apply first_ids in He. destruct He as [r He]. congruence.
      * rewrite firsts_heading by auto. destruct (ids_first _ _ _ _ E2) as (e & He & Ei). split; [intros H; split; auto; exists e; rewrite Ei; auto|].
        intros (_ & e' & He' & H). apply first_ids in He'. destruct He' as [r' He']. assert (did e' = i) as <- by congruence. exact H.
    + destruct (ids t l1) as [|i r _] eqn:E1 using rev_ind.
      * cbn [length]. split; [discriminate|]. intros (_ & e & He & _). apply last_rev, first_ids in He. destruct He as [r He]. rewrite ids_rev, E1 in He. discriminate.
      * rewrite app_length. cbn [length]. rewrite Nat.add_1_r. rewrite S, <- app_assoc, nth_error_app2, Nat.sub_diag by lia. cbn [app nth_error].
        assert (E1r : ids t (rev l1) = i :: rev r) by (rewrite ids_rev, E1, rev_app_distr; reflexivity).
        rewrite firsts_heading by auto. destruct (ids_first _ _ _ _ E1r) as (e & He & Ei). split; [intros H; split; auto; exists e; rewrite Ei; split; auto; now apply last_rev|].
        intros (_ & e' & He' & H). apply last_rev, first_ids in He'. destruct He' as [r' He']. assert (did e' = i) as <- by congruence. exact H.
    + rewrite S, nth_error_app2, Nat.sub_diag by lia. cbn [nth_error]. rewrite firsts_heading by auto. intuition.
  - change (link_entry (lit "next") t) with (key Next t). change (link_entry (lit "prev") t) with (key Prev t). change (link_entry (lit "curr") t) with (key Curr t).
    assert (NM : ~ In t (targets d)) by (intros C; apply mem_In in C; congruence).
    assert (I : index (did d) (ids t docs) = None) by (apply index_None; now apply (not_target docs l1 l2)).
    split; [|split]; intros l; rewrite K; unfold target_of; rewrite I; cbn [rel]; (split; [discriminate|intros [C _]; contradiction]).
Qed.

(** Nothing else changes in the contexts. *)
Theorem C41_frame docs l1 l2 d labels k :
  docs = l1 ++ d :: l2 -> tree_ok docs -> (forall t name, In t (targets (last docs d)) -> In name [lit "prev"; lit "curr"; lit "next"] -> k <> link_entry name t) ->
  exists d', nth_error (set_navigation docs labels) (length l1) = Some d' /\ lookup k (entries d') = lookup k (entries d).
Proof.
  intros Hd Hok H. exists (after docs d labels). split; [now apply (nav_after docs l1 l2)|]. apply set_all_other; auto.
  2:{ intros t w It. destruct w; [apply (H t (lit "prev")) | apply (H t (lit "curr")) | apply (H t (lit "next"))]; cbn; auto. }
  apply Hok. rewrite Hd. apply in_or_app. right. now left.
Qed.

(** Finding: for a target that the last document does not have, there are no links. *)
Definition dA : document := {| did := lit "a"; targets := [lit ".html"; lit ".tex"]; entries := nil |}.
Definition dB : document := {| did := lit "b"; targets := [lit ".html"]; entries := nil |}.
Definition dC : document := {| did := lit "c"; targets := [lit ".tex"]; entries := nil |}.
Definition lab (i : str) (n : nat) : label := {| ldoc := i; lname := n |}.
Lemma ok3 : tree_ok [dA; dB; dC].
Proof.
  split; [cbn [map dA dB dC did]; constructor; [cbn; intros [C|[C|[]]]; discriminate|constructor; [cbn; intros [C|[]]; discriminate|constructor; [intros []|constructor]]]|].
  intros d [<-|[<-|[<-|[]]]]; (split; [constructor|]); cbn [targets dA dB dC map].
  - constructor; [cbn; intros [C|[]]; discriminate|constructor; [intros []|constructor]].
  - constructor; [intros []|constructor].
  - constructor; [intros []|constructor].
Qed.
Lemma grouped3 : grouped [lab (lit "a") 0; lab (lit "a") 1; lab (lit "b") 2].
Proof.
  exists [lit "a"; lit "b"]. split; [constructor; [cbn; intros [C|[]]; discriminate|constructor; [intros []|constructor]]|]. vm_compute. reflexivity.
Qed.
Theorem C41_targets_refuted : ~ (forall docs l1 l2 d labels t l e, docs = l1 ++ d :: l2 -> tree_ok docs -> grouped labels ->
  In t (targets d) -> first_with t l2 e -> heading labels (did e) l ->
  exists d', nth_error (set_navigation docs labels) (length l1) = Some d' /\ lookup (link_entry (lit "next") t) (entries d') = Some l).
Proof.
  intros H. destruct (H [dA; dB; dC] nil [dB; dC] dA [lab (lit "a") 0; lab (lit "a") 1; lab (lit "b") 2] (lit ".html") (lab (lit "b") 2) dB) as (d' & E & L); auto using ok3, grouped3.
  - now left.
  - exists nil, [dC]. split; auto. split; [now left|intros x []].
  - exists [lab (lit "a") 0; lab (lit "a") 1], nil. split; auto. split; auto. intros x [<-|[<-|[]]]; cbn; discriminate.
  - vm_compute in E. injection E as <-. vm_compute in L. discriminate.
Qed.

(** Finding: entries are left from an earlier update for targets that the last
    document does not have. *)
Definition dS : document := {| did := lit "s"; targets := [lit ".tex"]; entries := [(lit "next_html", lab (lit "gone") 7)] |}.
Theorem C41_stale_refuted : ~ (forall docs l1 l2 d labels t, docs = l1 ++ d :: l2 -> tree_ok docs -> grouped labels ->
  (forall x, In x docs -> ~ In t (targets x)) ->
  exists d', nth_error (set_navigation docs labels) (length l1) = Some d' /\ lookup (link_entry (lit "next") t) (entries d') = None).
Proof.
  intros H. destruct (H [dS] nil nil dS nil (lit ".html")) as (d' & E & L); auto.
  - split; [constructor; [intros []|constructor]|]. intros d [<-|[]]. split; [constructor; [intros []|constructor]|constructor; [intros []|constructor]].
  - exists nil. split; constructor.
  - intros x [<-|[]] [C|[]]. discriminate.
  - vm_compute in E. injection E as <-. vm_compute in L. discriminate.
Qed.

(** Finding: a document without headings has no links to it, and the links do
    not go past it either. *)
Theorem C41_skip_refuted : ~ (forall docs l1 d mid e l2 labels t l, docs = l1 ++ d :: mid ++ e :: l2 -> tree_ok docs -> grouped labels ->
  (forall x, In x docs -> In t (targets x)) -> (forall x y, In x mid -> In y labels -> ldoc y <> did x) -> heading labels (did e) l ->
  exists d', nth_error (set_navigation docs labels) (length l1) = Some d' /\ lookup (link_entry (lit "next") t) (entries d') = Some l).
Proof.
  intros H. set (mk := fun i => {| did := i; targets := [lit ".html"]; entries := nil |}).
  destruct (H [mk (lit "a"); mk (lit "b"); mk (lit "c")] nil (mk (lit "a")) [mk (lit "b")] (mk (lit "c")) nil [lab (lit "c") 0] (lit ".html") (lab (lit "c") 0)) as (d' & E & L); auto.
  - split; [cbn [map mk did]; constructor; [cbn; intros [C|[C|[]]]; discriminate|constructor; [cbn; intros [C|[]]; discriminate|constructor; [intros []|constructor]]]|].
    intros d [<-|[<-|[<-|[]]]]; (split; [constructor|constructor; [intros []|constructor]]).
  - exists [lit "c"]. split; [constructor; [intros []|constructor]|vm_compute; reflexivity].
  - intros x [<-|[<-|[<-|[]]]]; now left.
  - intros x y [<-|[]] [<-|[]]. cbn. discriminate.
  - exists nil, nil. split; auto.
  - vm_compute in E. injection E as <-. vm_compute in L. discriminate.
Qed.

Example C41_ex :
  let docs := [dA; dC; {| did := lit "d"; targets := [lit ".tex"; lit ".html"]; entries := [(lit "next_html", lab (lit "gone") 7)] |}] in
  let labels := [lab (lit "a") 0; lab (lit "a") 1; lab (lit "d") 2] in
  tree_ok docs /\ grouped labels /\
  map (fun d => map snd (entries d)) (set_navigation docs labels) = [[lab (lit "a") 0; lab (lit "a") 0; lab (lit "d") 2]; [lab (lit "a") 0; lab (lit "d") 2]; [lab (lit "d") 2; lab (lit "a") 0; lab (lit "d") 2]].
Proof.
  cbv zeta. split; [|split].
  - split; [cbn [map dA dB dC did]; constructor; [cbn; intros [C|[C|[]]]; discriminate|constructor; [cbn; intros [C|[]]; discriminate|constructor; [intros []|constructor]]]|].
    intros d [<-|[<-|[<-|[]]]]; cbn [entries dA dC targets map]; (split; [constructor; (intros [] || constructor)|]); (constructor; [cbn; (intros [C|[]]; discriminate) || intros []|constructor; (intros [] || constructor)]).
  - exists [lit "a"; lit "d"]. split; [constructor; [cbn; intros [C|[]]; discriminate|constructor; [intros []|constructor]]|]. vm_compute. reflexivity.
  - vm_compute. reflexivity.
Qed.

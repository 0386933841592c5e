From Coq Require Import List Bool Arith NArith Lia.
From Verif.Base Require Import Str StrFacts Dict DictFacts ListFacts.
From Verif.Model Require Import Navigation.
From Verif.Spec Require Import Navigation.
Import ListNotations.

Lemma lookup_add_id i m t t' : lookup t' (add_id i m t) = if eqb t' t then Some (match lookup t m with Some l => l ++ [i] | None => [i] end) else lookup t' m.
Proof. unfold add_id. apply lookup_set. Qed.
Definition ids (t : str) (docs : list document) : list str := map did (filter (fun d => mem t (targets d)) docs).
Definition nonempty (l : list str) : option (list str) := match l with nil => None | _ => Some l end.
Lemma add_ids i ts m t : NoDup ts -> lookup t (fold_left (add_id i) ts m) = if mem t ts then Some (match lookup t m with Some l => l ++ [i] | None => [i] end) else lookup t m.
Proof.
  revert m. induction ts as [|x ts IH]; intros m Nd; auto. cbn [fold_left mem]. inversion Nd as [|? ? Hx Nd']; subst. rewrite IH by auto. rewrite lookup_add_id.
  destruct (eqb_spec t x) as [->|Ne]; cbn [orb].
  - destruct (mem x ts) eqn:M; auto. apply mem_In in M. contradiction.
  - auto.
Qed.
Lemma ids_by_target_spec docs t : (forall d, In d docs -> NoDup (targets d)) -> lookup t (ids_by_target docs) = nonempty (ids t docs).
Proof.
  intros H. unfold ids_by_target.
  assert (X : forall m, lookup t (fold_left (fun m d => fold_left (add_id (did d)) (targets d) m) docs m) =
    match lookup t m with Some l => Some (l ++ ids t docs) | None => nonempty (ids t docs) end).
  { induction docs as [|d docs IH]; intros m; cbn [fold_left].
    - cbn. destruct (lookup t m); auto. now rewrite app_nil_r.
    - rewrite IH by (intros; apply H; now right). rewrite add_ids by (apply H; now left). unfold ids. cbn [filter]. destruct (mem t (targets d)) eqn:M; auto.
      cbn [map]. destruct (lookup t m); cbn; [now rewrite <- app_assoc|reflexivity]. }
  apply X.
Qed.

(** Groups of labels *)
Lemma firsts_run i run rest m : (forall l, In l run -> ldoc l = i) -> firsts (Some i) (run ++ rest) m = firsts (Some i) rest m.
Proof.
  induction run as [|l run IH]; intros H; auto. cbn [app firsts]. rewrite (H l (or_introl eq_refl)), eqb_refl. apply IH. intros; apply H; now right.
Qed.
Lemma firsts_order (f : str -> list label) i0 order : forall prev m, NoDup order -> (forall i l, In l (f i) -> ldoc l = i) ->
  match prev with Some p => ~ In p order | None => True end ->
  lookup i0 (firsts prev (flat_map f order) m) = if mem i0 order then match f i0 with l :: _ => Some l | nil => lookup i0 m end else lookup i0 m.
Proof.
  induction order as [|i order IH]; intros prev m Nd Hf Hp; auto. cbn [flat_map mem]. inversion Nd as [|? ? Hi Nd']; subst.
  destruct (f i) as [|l run] eqn:E.
  - cbn [app]. rewrite IH; auto; [|destruct prev; auto; intros C; apply Hp; now right]. destruct (eqb_spec i0 i) as [->|]; auto. cbn [orb]. rewrite E. destruct (mem i order) eqn:M; auto.
  - assert (Hr : forall x, In x (l :: run) -> ldoc x = i) by (intros x Hx; apply Hf; now rewrite E).
    cbn [app firsts]. rewrite (Hr l (or_introl eq_refl)).
    assert (Np : eqb (Some i) prev = false) by (apply eqb_neq; intros <-; apply Hp; now left). rewrite Np.
    rewrite firsts_run by (intros; apply Hr; now right). rewrite IH; auto. rewrite lookup_set. destruct (eqb_spec i0 i) as [->|]; auto. cbn [orb]. rewrite E. destruct (mem i order) eqn:M; auto.
Qed.
Lemma filter_first (P : label -> bool) ls l r : filter P ls = l :: r -> exists l1 l2, ls = l1 ++ l :: l2 /\ P l = true /\ forall x, In x l1 -> P x = false.
Proof.
  induction ls as [|x ls IH]; [discriminate|]. cbn [filter]. destruct (P x) eqn:E.
  - intros X. injection X as -> _. exists nil, ls. split; auto. split; auto. intros y [].
  - intros X. destruct (IH X) as (l1 & l2 & -> & Hl & H). exists (x :: l1), l2. split; auto. split; auto. intros y [<-|Hy]; auto.
Qed.
Lemma firsts_heading labels i l : grouped labels -> lookup i (firsts None labels nil) = Some l <-> heading labels i l.
Proof.
  intros (order & Nd & E).
  assert (X : lookup i (firsts None labels nil) = match filter (fun l => eqb (ldoc l) i) labels with l :: _ => Some l | nil => None end).
  { rewrite E at 1. rewrite firsts_order; auto.
    - destruct (mem i order) eqn:M; [reflexivity|]. cbn [lookup]. destruct (filter _ labels) as [|x r] eqn:F; auto. exfalso.
      assert (Hx : In x (filter (fun l => eqb (ldoc l) i) labels)) by (rewrite F; now left). apply filter_In in Hx. destruct Hx as [Hx Ei]. apply eqb_eq in Ei.
      rewrite E in Hx. apply in_flat_map in Hx. destruct Hx as (j & Hj & Hx). apply filter_In in Hx. destruct Hx as [_ Ej]. apply eqb_eq in Ej.
      assert (mem i order = true) by (apply mem_In; congruence). congruence.
    - intros j x Hx. apply filter_In in Hx. now apply eqb_eq. }
  rewrite X. split.
  - destruct (filter _ labels) as [|x r] eqn:F; [discriminate|]. intros Y. injection Y as ->. destruct (filter_first _ _ _ _ F) as (l1 & l2 & El & Hl & H).
    exists l1, l2. split; auto. split; [now apply eqb_eq|]. intros y Hy. apply eqb_neq. now apply H.
  - intros (l1 & l2 & El & Hl & H). rewrite El, filter_app. cbn [filter]. rewrite Hl, eqb_refl.
    assert (F : filter (fun l => eqb (ldoc l) i) l1 = nil).
    { clear El. induction l1 as [|y l1 IH]; auto. cbn [filter]. rewrite (proj2 (eqb_neq _ _) (H y (or_introl eq_refl))). apply IH. intros; apply H; now right. }
    now rewrite F.
Qed.

(** Positions *)
Lemma index_nth i l n : index i l = Some n -> nth_error l n = Some i.
Proof.
  revert n. induction l as [|j l IH]; intros n; [discriminate|]. cbn [index]. destruct (eqb_spec i j) as [->|]; [intros E; injection E as <-; reflexivity|].
  destruct (index i l) as [k|]; [|discriminate]. intros E. injection E as <-. now apply IH.
Qed.
Lemma index_app i l r : ~ In i l -> index i (l ++ i :: r) = Some (length l).
Proof.
  induction l as [|j l IH]; intros H; cbn [app index]; [now rewrite eqb_refl|].
  rewrite (proj2 (eqb_neq i j)) by (intros ->; apply H; now left). rewrite IH; auto. intros C. apply H. now right.
Qed.
Lemma index_None i l : ~ In i l -> index i l = None.
Proof.
  induction l as [|j l IH]; intros H; cbn [index]; auto.
  rewrite (proj2 (eqb_neq i j)) by (intros ->; apply H; now left). rewrite IH; auto. intros C. apply H. now right.
Qed.

(** Keys *)
Lemma key_inj w t w' t' : key w t = key w' t' -> w = w' /\ strip_c 46 t = strip_c 46 t'.
Proof.
  unfold key. cbn [join]. intros E. destruct w, w'; cbn in E; try discriminate E; split; auto; congruence.
Qed.

(** The entries of one document *)
Definition target_of (ids : list str) (by_id : dict str label) (d : document) (w : which) : option label :=
  match rel w (index (did d) ids) with
  | Some n => match nth_error ids n with Some i => lookup i by_id | None => None end
  | None => None
  end.
Lemma lookup_set_entry ids by_id t d e w k : wf e -> lookup k (set_entry ids by_id t d e w) = if eqb k (key w t) then target_of ids by_id d w else lookup k e.
Proof.
  intros W. unfold set_entry, target_of. destruct (match rel w (index (did d) ids) with Some n => _ | None => None end).
  - apply lookup_set.
  - now apply lookup_remove.
Qed.
Lemma wf_set_entry ids by_id t d e w : wf e -> wf (set_entry ids by_id t d e w).
Proof. intros W. unfold set_entry. destruct (match rel w (index (did d) ids) with Some n => _ | None => None end); [now apply wf_set|now apply wf_remove]. Qed.
Lemma set_document_key ids by_id t d w : wf (entries d) -> lookup (key w t) (entries (set_document ids by_id t d)) = target_of ids by_id d w.
Proof.
  intros W. unfold set_document. cbn [entries fold_left]. rewrite !lookup_set_entry by auto 7 using wf_set_entry.
  destruct (eqb_spec (key w t) (key Next t)) as [E|N1]; [apply key_inj in E as [-> _]; auto|].
  destruct (eqb_spec (key w t) (key Curr t)) as [E|N2]; [apply key_inj in E as [-> _]; auto|].
  destruct (eqb_spec (key w t) (key Prev t)) as [E|N]; [apply key_inj in E as [-> _]; auto|]. destruct w; congruence.
Qed.
Lemma set_document_other ids by_id t d k : wf (entries d) -> (forall w, k <> key w t) -> lookup k (entries (set_document ids by_id t d)) = lookup k (entries d).
Proof.
  intros W H. unfold set_document. cbn [entries fold_left]. rewrite !lookup_set_entry by auto 7 using wf_set_entry.
  rewrite !(proj2 (eqb_neq _ _) (H _)). reflexivity.
Qed.
Lemma set_document_wf ids by_id t d : wf (entries d) -> wf (entries (set_document ids by_id t d)).
Proof. intros W. cbn [set_document entries fold_left]. auto 7 using wf_set_entry. Qed.

(** All targets *)
Definition set_all (m : dict str (list str)) (by_id : dict str label) (ts : list str) (d : document) : document :=
  fold_left (fun d t => match lookup t m with Some ids => set_document ids by_id t d | None => d end) ts d.
Lemma set_all_map m by_id ts docs :
  fold_left (fun ds t => match lookup t m with Some ids => map (set_document ids by_id t) ds | None => ds end) ts docs = map (set_all m by_id ts) docs.
Proof.
  revert docs. induction ts as [|t ts IH]; intros docs; cbn [fold_left]; [symmetry; apply map_id|].
  rewrite IH. unfold set_all. cbn [fold_left]. destruct (lookup t m); [now rewrite map_map|reflexivity].
Qed.
Lemma set_all_id m by_id ts d : did (set_all m by_id ts d) = did d /\ targets (set_all m by_id ts d) = targets d.
Proof. revert d. induction ts as [|t ts IH]; intros d; auto. unfold set_all. cbn [fold_left]. destruct (lookup t m); [exact (IH (set_document _ _ _ _))|exact (IH d)]. Qed.
Lemma set_all_other m by_id ts : forall d k, wf (entries d) -> (forall t w, In t ts -> k <> key w t) -> lookup k (entries (set_all m by_id ts d)) = lookup k (entries d).
Proof.
  induction ts as [|t ts IH]; intros d k W H; auto. unfold set_all. cbn [fold_left].
  assert (H' : forall t w, In t ts -> k <> key w t) by (intros; apply H; now right).
  destruct (lookup t m) as [l|]; [|now apply IH]. 
  change (lookup k (entries (set_all m by_id ts (set_document l by_id t d))) = lookup k (entries d)).
  rewrite IH by auto using set_document_wf. apply set_document_other; auto. intros w. apply H. now left.
Qed.
Lemma set_all_key m by_id ts : forall d t w l, wf (entries d) -> In t ts -> NoDup (map (strip_c 46) ts) -> lookup t m = Some l ->
  lookup (key w t) (entries (set_all m by_id ts d)) = target_of l by_id d w.
Proof.
  induction ts as [|x ts IH]; intros d t w l W I Nd L; [contradiction|]. cbn [map] in Nd. inversion Nd as [|? ? Hx Nd']; subst. unfold set_all. cbn [fold_left].
  destruct I as [->|I].
  - rewrite L. change (lookup (key w t) (entries (set_all m by_id ts (set_document l by_id t d))) = target_of l by_id d w).
    rewrite set_all_other; auto using set_document_wf, set_document_key.
    intros t' w' I' E. apply key_inj in E as [_ E]. apply Hx. rewrite E. now apply in_map.
  - destruct (lookup x m) as [lx|] eqn:Lx; [|apply (IH d t w l); auto].
    change (lookup (key w t) (entries (set_all m by_id ts (set_document lx by_id x d))) = target_of l by_id d w).
    rewrite (IH _ t w l); auto using set_document_wf.
Qed.

(** Neighbours *)
Lemma ids_app t a b : ids t (a ++ b) = ids t a ++ ids t b.
Proof. unfold ids. now rewrite filter_app, map_app. Qed.
Lemma ids_In t docs i : In i (ids t docs) -> exists d, In d docs /\ did d = i /\ In t (targets d).
Proof. unfold ids. rewrite in_map_iff. intros (d & E & Hd). apply filter_In in Hd. destruct Hd as [Hd M]. apply mem_In in M. eauto. Qed.
Lemma ids_first t docs i r : ids t docs = i :: r -> exists e, first_with t docs e /\ did e = i.
Proof.
  unfold ids. induction docs as [|d docs IH]; [discriminate|]. cbn [filter]. destruct (mem t (targets d)) eqn:M.
  - cbn [map]. intros E. injection E as <- _. exists d. split; auto. exists nil, docs. split; auto. split; [now apply mem_In|]. intros x [].
  - intros E. destruct (IH E) as (e & (l1 & l2 & -> & He & H) & <-). exists e. split; auto. exists (d :: l1), l2. split; auto. split; auto.
    intros x [<-|Hx]; auto. intros C. apply mem_In in C. congruence.
Qed.
Lemma first_ids t docs e : first_with t docs e -> exists r, ids t docs = did e :: r.
Proof.
  intros (l1 & l2 & -> & He & H). rewrite ids_app. assert (E : ids t l1 = nil).
  { unfold ids. induction l1 as [|x l1 IH]; auto. cbn [filter]. destruct (mem t (targets x)) eqn:M; [apply mem_In in M; exfalso; apply (H x); [now left|auto]|]. apply IH. intros; apply H; now right. }
  rewrite E. unfold ids. cbn [filter app]. rewrite (proj2 (mem_In _ _) He). cbn. eauto.
Qed.
Lemma last_rev t docs e : last_with t docs e <-> first_with t (rev docs) e.
Proof.
  split; intros (l1 & l2 & E & He & H).
  - exists (rev l2), (rev l1). subst. rewrite rev_app_distr. cbn [rev]. rewrite <- app_assoc. split; auto. split; auto. intros x Hx. apply H. now apply in_rev.
  - exists (rev l2), (rev l1). assert (D : docs = rev (rev docs)) by (symmetry; apply rev_involutive). rewrite D, E, rev_app_distr. cbn [rev]. rewrite <- app_assoc. split; auto. split; auto.
    intros x Hx. apply H. now apply in_rev.
Qed.
Lemma ids_rev t docs : ids t (rev docs) = rev (ids t docs).
Proof.
  induction docs as [|d docs IH]; auto. cbn [rev]. rewrite ids_app, IH. unfold ids. cbn [filter]. destruct (mem t (targets d)); cbn [map rev]; [reflexivity|now rewrite app_nil_r].
Qed.

(** Property C42 *)
From Coq Require Import List Bool Arith NArith Lia.
From Verif.Base Require Import Str StrFacts Dict DictFacts Result.
From Verif.Model Require Import Attributes Labels Toc.
From Verif.Spec Require Import Labels Toc.
From Verif.Proof Require Import Labels.
From Verif.Props Require Import Labels.
Import ListNotations.

Lemma abbreviate_run cur i run rest : (forall l, In l run -> l_doc l = i) ->
  abbreviate cur (Some i) (run ++ rest) = (if eqb (Some i) cur then run else []) ++ abbreviate cur (Some i) rest.
Proof.
  intros H. induction run as [|l run IH]; [now destruct (eqb (Some i) cur)|]. cbn [app abbreviate]. rewrite (H l (or_introl eq_refl)).
  rewrite IH by (intros; apply H; now right). destruct (eqb (Some i) cur); [reflexivity|]. now rewrite eqb_refl.
Qed.
Lemma abbreviate_runs cur f order : forall prev, NoDup order -> (forall i l, In l (f i) -> l_doc l = i) ->
  match prev with Some p => ~ In p order | None => True end ->
  abbreviate cur prev (flat_map f order) = abbreviated cur f order.
Proof.
  induction order as [|i order IH]; intros prev Nd Hf Hp; auto. cbn [flat_map]. unfold abbreviated. cbn [flat_map]. inversion Nd as [|? ? Hi Nd']; subst.
  destruct (f i) as [|l run] eqn:E.
  - cbn [app firstn]. rewrite IH; auto; [|destruct prev; auto; intros C; apply Hp; now right]. now destruct (eqb (Some i) cur).
  - assert (Hr : forall x, In x (l :: run) -> l_doc x = i) by (intros x Hx; apply Hf; now rewrite E).
    cbn [app abbreviate]. rewrite (Hr l (or_introl eq_refl)), abbreviate_run by (intros; apply Hr; now right). rewrite IH by auto.
    assert (Np : eqb (Some i) prev = false) by (apply eqb_neq; intros <-; apply Hp; now left). rewrite Np.
    destruct (eqb (Some i) cur); reflexivity.
Qed.

(** For labels that come document by document, abbreviating keeps all of the
    current document and exactly the first of each other one, in order. *)
Theorem C42_abbreviate cur labels docs :
  NoDup docs -> labels = flat_map (fun d => filter (fun l => eqb (l_doc l) d) labels) docs ->
  abbreviate cur None labels = abbreviated cur (fun d => filter (fun l => eqb (l_doc l) d) labels) docs.
Proof.
  intros Nd E. rewrite E at 1. apply abbreviate_runs; auto. intros i l Hl. apply filter_In in Hl. now apply eqb_eq.
Qed.

(** Lists of labels that differ in numbers and links only *)
Definition alike (a b : list label) : Prop := map ident a = map ident b.
Lemma ident_doc a b : ident a = ident b -> l_doc a = l_doc b.
Proof. unfold ident. congruence. Qed.
Lemma ident_kind a b : ident a = ident b -> l_kind a = l_kind b.
Proof. unfold ident. congruence. Qed.
Lemma alike_filter (P : label -> bool) : (forall x y, ident x = ident y -> P x = P y) -> forall a b, alike a b -> alike (filter P a) (filter P b).
Proof.
  intros H. unfold alike. induction a as [|x a IH]; intros [|y b] E; try discriminate; auto. cbn [map] in E. apply cons_inj in E as [E1 E2]. cbn [filter].
  rewrite (H x y E1). destruct (P y); cbn [map]; [f_equal; auto|auto].
Qed.
Lemma alike_abbreviate cur : forall a b prev, alike a b -> alike (abbreviate cur prev a) (abbreviate cur prev b).
Proof.
  unfold alike. induction a as [|x a IH]; intros [|y b] prev E; try discriminate; auto. cbn [map] in E. apply cons_inj in E as [E1 E2]. cbn [abbreviate].
  rewrite (ident_doc _ _ E1). destruct (eqb (Some (l_doc y)) cur); [cbn [map]; f_equal; auto|]. destruct (eqb (Some (l_doc y)) prev); [auto|cbn [map]; f_equal; auto].
Qed.
Lemma filter_r_inv k ls r : filter_r (kind_in k) ls = Ok r -> r = filter (fun l => mem k (kinds_of l)) ls.
Proof.
  revert r. induction ls as [|l ls IH]; intros r E; cbn [filter_r] in E; [injection E as <-; reflexivity|]. unfold kind_in at 1 in E. cbn [filter]. unfold kinds_of at 1.
  destruct (l_kind l) as [ks|]; [|discriminate]. cbn [bind] in E. destruct (filter_r (kind_in k) ls) as [r'|]; [|discriminate]. cbn [bind] in E. rewrite <- (IH r' eq_refl).
  destruct (mem k ks); injection E as <-; reflexivity.
Qed.
Lemma by_kind_inv e doc k m ls m' : get_labels_by_kind e doc [k] m = (Ok ls, m') ->
  ls = filter (fun l => mem k (kinds_of l)) (match doc with Some d => filter (fun l => eqb (l_doc l) d) (values (m_labels (register e m))) | None => values (m_labels (register e m)) end).
Proof.
  unfold get_labels_by_kind. intros E. injection E as E <-. cbn [by_kinds] in E.
  destruct (filter_r (kind_in k) _) as [r|] eqn:F; [|discriminate]. cbn [bind] in E. apply filter_r_inv in F. rewrite app_nil_r in E. injection E as <-. exact F.
Qed.
Lemma filter_filter {A} (P Q : A -> bool) l : filter P (filter Q l) = filter (fun x => Q x && P x) l.
Proof. induction l as [|x l IH]; auto. cbn [filter]. destruct (Q x); cbn [filter andb]; [destruct (P x); congruence|auto]. Qed.
Lemma filter_flat_map {A B} (P : B -> bool) (f : A -> list B) l : filter P (flat_map f l) = flat_map (fun x => filter P (f x)) l.
Proof. induction l as [|x l IH]; auto. cbn [flat_map]. now rewrite filter_app, IH. Qed.

(** The table 'all headings abbreviated' of a document [cur], after any history of
    the label manager, for the documents [ds] of the tree: the headings of [cur]
    and the first heading of the other documents, in the order of the tree. *)
Theorem C42_headings h e ds ws cur ls m' :
  m_registered (run h) = false -> e_docs e = Some ds ->
  (In (lit "heading") ws \/ In (lit "headings") ws) -> ~ In (lit "document") ws -> ~ In (lit "documents") ws ->
  In (lit "all") ws -> In (lit "abbreviated") ws ->
  get_labels e ws cur (run h) = (Ok ls, m') ->
  map ident ls = map ident (abbreviated cur (fun d => labels_of (lit "heading") d (values (m_labels (run h)))) (first_mentions ds)).
Proof.
  intros Hr Hd Hh N1 N2 Ha Hb. unfold get_labels, word.
  assert (Eh : mem (lit "heading") ws || mem (lit "headings") ws = true) by (apply orb_true_iff; destruct Hh as [I|I]; [left|right]; now apply mem_In).
  assert (Ed : mem (lit "document") ws || mem (lit "documents") ws = false) by (apply orb_false_iff; split; apply mem_not_In; auto).
  rewrite Eh, Ed, (proj2 (mem_In _ _) Ha), (proj2 (mem_In _ _) Hb).
  destruct (get_labels_by_kind e None [lit "heading"] (run h)) as [[l1|x] m1] eqn:E; [|discriminate]. intros X. rewrite app_nil_r in X. injection X as <- <-.
  apply by_kind_inv in E. subst l1.
  pose proof (C16_order h e ds Hr Hd) as O.
  etransitivity; [apply (alike_abbreviate cur _ (filter (fun l => mem (lit "heading") (kinds_of l)) (flat_map (fun d => filter (fun l => eqb (l_doc l) d) (values (m_labels (run h)))) (first_mentions ds))))|].
  - apply alike_filter; [|exact O]. intros x y Exy. unfold kinds_of. now rewrite (ident_kind _ _ Exy).
  - rewrite filter_flat_map, abbreviate_runs; auto.
    + f_equal. unfold abbreviated. apply flat_map_ext. intros d. rewrite filter_filter. reflexivity.
    + apply first_mentions_NoDup.
    + intros i l Hl. apply filter_In in Hl. destruct Hl as [Hl _]. apply filter_In in Hl. now apply eqb_eq.
Qed.

Lemma other_empty (P : label -> bool) d x L : x <> d -> filter P (filter (fun l => eqb (l_doc l) d) (filter (fun l => eqb (l_doc l) x) L)) = [].
Proof.
  intros Nx. induction L as [|l L IH]; auto. cbn [filter]. destruct (eqb_spec (l_doc l) x) as [Ex|]; auto. cbn [filter].
  rewrite (proj2 (eqb_neq (l_doc l) d)) by congruence. exact IH.
Qed.
(** Without 'all' and 'abbreviated', the headings of the document itself; with
    'all' alone, those of all documents of the tree. *)
Theorem C42_own h e ds ws d ls m' :
  m_registered (run h) = false -> e_docs e = Some ds -> In d ds ->
  (In (lit "heading") ws \/ In (lit "headings") ws) -> ~ In (lit "document") ws -> ~ In (lit "documents") ws ->
  ~ In (lit "all") ws ->
  get_labels e ws (Some d) (run h) = (Ok ls, m') ->
  map ident ls = map ident (labels_of (lit "heading") d (values (m_labels (run h)))).
Proof.
  intros Hr Hd Id Hh N1 N2 Ha. unfold get_labels, word.
  assert (Eh : mem (lit "heading") ws || mem (lit "headings") ws = true) by (apply orb_true_iff; destruct Hh as [I|I]; [left|right]; now apply mem_In).
  assert (Ed : mem (lit "document") ws || mem (lit "documents") ws = false) by (apply orb_false_iff; split; apply mem_not_In; auto).
  rewrite Eh, Ed, (proj2 (mem_not_In _ _) Ha).
  destruct (get_labels_by_kind e (Some d) [lit "heading"] (run h)) as [[l1|x] m1] eqn:E; [|discriminate]. intros X. rewrite app_nil_r in X.
  apply by_kind_inv in E. assert (Els : ls = if mem (lit "abbreviated") ws then abbreviate (Some d) None l1 else l1) by congruence. rewrite Els. clear X Els.
  pose proof (C16_order h e ds Hr Hd) as O.
  assert (A : alike l1 (labels_of (lit "heading") d (values (m_labels (run h))))).
  { subst l1. etransitivity.
    - apply alike_filter; [intros x y Exy; unfold kinds_of; now rewrite (ident_kind _ _ Exy)|]. apply (alike_filter (fun l => eqb (l_doc l) d)); [intros x y Exy; now rewrite (ident_doc _ _ Exy)|exact O].
    - unfold alike. f_equal. rewrite filter_flat_map, filter_flat_map. unfold labels_of.
      assert (Y : forall order, NoDup order -> In d order ->
        flat_map (fun x => filter (fun l => mem (lit "heading") (kinds_of l)) (filter (fun l => eqb (l_doc l) d) (filter (fun l => eqb (l_doc l) x) (values (m_labels (run h)))))) order
        = filter (fun l => eqb (l_doc l) d && mem (lit "heading") (kinds_of l)) (values (m_labels (run h)))).
      { assert (Z : forall x, x <> d -> filter (fun l => mem (lit "heading") (kinds_of l)) (filter (fun l => eqb (l_doc l) d) (filter (fun l => eqb (l_doc l) x) (values (m_labels (run h))))) = []).
        { intros x Nx. apply other_empty. exact Nx. }
        induction order as [|x order IHo]; intros Nd I; [contradiction|]. inversion Nd as [|? ? Hx Nd']; subst. cbn [flat_map]. destruct (eqb_spec x d) as [->|Nx].
        - assert (Zs : flat_map (fun x => filter (fun l => mem (lit "heading") (kinds_of l)) (filter (fun l => eqb (l_doc l) d) (filter (fun l => eqb (l_doc l) x) (values (m_labels (run h)))))) order = []).
          { clear - Hx Z. induction order as [|y order IHo]; auto. cbn [flat_map]. rewrite Z by (intros ->; apply Hx; now left). apply IHo. intros C. apply Hx. now right. }
          rewrite Zs, app_nil_r, !filter_filter. apply filter_ext. intros l. destruct (eqb (l_doc l) d); reflexivity.
        - rewrite Z by auto. cbn [app]. apply IHo; auto. destruct I as [C|I]; [congruence|auto]. }
      apply Y; [apply first_mentions_NoDup|now apply first_mentions_In]. }
  destruct (mem (lit "abbreviated") ws); [|exact A].
  assert (B : abbreviate (Some d) None l1 = l1).
  { assert (Dl : forall l, In l l1 -> l_doc l = d).
    { intros l Hl. assert (Hl' : In (ident l) (map ident l1)) by now apply in_map. rewrite A in Hl'. apply in_map_iff in Hl'. destruct Hl' as (y & Ey & Hy).
      apply filter_In in Hy. destruct Hy as [_ Hy]. apply andb_true_iff in Hy. destruct Hy as [Hy _]. apply eqb_eq in Hy. rewrite <- (ident_doc _ _ Ey). exact Hy. }
    clear - Dl. generalize (@None str) as p. induction l1 as [|l l1 IH]; intros p; auto. cbn [abbreviate]. rewrite (Dl l (or_introl eq_refl)), eqb_refl. f_equal. apply IH. intros; apply Dl; now right. }
  rewrite B. exact A.
Qed.

(** The items of the table: one for each label, in order, with the level of its
    heading. *)
Lemma reference_tags_spec ls : forall before cur items, reference_tags cur ls = Ok items ->
  (before = [] /\ cur = 1 \/ exists b x, before = b ++ [x] /\ toc_level before cur) ->
  map fst items = map l_id ls /\ forall a l r n, ls = a ++ l :: r -> nth_error items (length a) = Some (l_id l, n) -> toc_level (before ++ a ++ [l]) n.
Proof.
  induction ls as [|l ls IH]; intros before cur items E Hb; cbn [reference_tags] in E; [injection E as <-; split; auto; intros [|? ?] ? ? ? C; discriminate|].
  destruct (l_kind l) as [[|k0 ks]|] eqn:K; try discriminate. set (k := last (k0 :: ks) []) in *.
  set (lev := if mem k toc_levels then index_of k toc_levels else cur) in *.
  destruct (reference_tags lev ls) as [rest|] eqn:R; [|discriminate]. cbn [bind] in E. injection E as <-.
  assert (Ek : l_kind l = Some (removelast (k0 :: ks) ++ [k])) by (rewrite K; f_equal; apply app_removelast_last; discriminate).
  assert (T : toc_level (before ++ [l]) lev).
  { unfold lev. destruct (mem k toc_levels) eqn:M.
    - eapply lev_heading; eauto. change heading_names with toc_levels. clear - M. induction toc_levels as [|a ls IHl]; [discriminate|]. cbn [mem existsb] in M.
      cbn [index_of]. destruct (eqb_spec k a) as [->|Ne]; [reflexivity|]. cbn [nth_error]. apply IHl. unfold mem. rewrite ?(proj2 (eqb_neq k a) Ne) in M. exact M.
    - assert (NI : ~ In k heading_names) by now apply mem_not_In. destruct Hb as [[-> ->]|(b & x & -> & Tb)]; [eapply lev_first; eauto|].
      rewrite <- app_assoc. cbn [app]. eapply lev_other; eauto. }
  destruct (IH (before ++ [l]) lev rest R) as [A B]; [right; eauto|]. split; [cbn [map fst]; now rewrite A|].
  intros [|x a] l' r n E N; cbn [app] in E.
  - injection E as <- <-. cbn [length nth_error] in N. injection N as <-. exact T.
  - injection E as <- E. cbn [length nth_error] in N. specialize (B a l' r n E N). rewrite <- app_assoc in B. exact B.
Qed.
Theorem C42_items ls items : reference_tags 1 ls = Ok items ->
  map fst items = map l_id ls /\
  forall a l r n, ls = a ++ l :: r -> nth_error items (length a) = Some (l_id l, n) -> toc_level (a ++ [l]) n.
Proof. intros E. apply (reference_tags_spec ls [] 1 items E). now left. Qed.

(** In html the items link to their labels, if no two have the same id and ids
    have no surrounding spaces.  Missing: labels of different documents with the
    same id. *)
Theorem C42_html_partial ls : NoDup (map l_id ls) -> (forall l, In l ls -> strip (l_id l) = l_id l) -> html_labels ls = map Some ls.
Proof.
  intros Nd Hs. unfold html_labels. apply map_ext_in. intros l Hl. rewrite Hs by auto.
  assert (X : forall d, ~ In (l_id l) (keys d) \/ lookup (l_id l) d = Some l -> forall ls, NoDup (map l_id ls) -> In l ls \/ (lookup (l_id l) d = Some l /\ ~ In (l_id l) (map l_id ls)) ->
    lookup (l_id l) (fold_left (fun d l => set (l_id l) l d) ls d) = Some l).
  { clear. intros d _ ls. revert d. induction ls as [|x ls IH]; intros d Nd [I|[L N]]; try contradiction; auto; cbn [fold_left].
    - cbn [map] in Nd. inversion Nd as [|? ? Hx Nd']; subst. apply IH; auto. destruct I as [->|I]; [right|left; auto]. split; [now rewrite lookup_set_eq|auto].
    - cbn [map] in Nd, N. inversion Nd as [|? ? Hx Nd']; subst. apply IH; auto. right. split; [rewrite lookup_set_neq; auto; intros E; apply N; left; congruence|intros C; apply N; now right]. }
  apply X; auto.
Qed.

(** Finding: two documents whose headings have the same id; both items link to
    the second. *)
Definition hd (u : nat) (d i : str) (k : list str) : label := Label u d i (Some k) true None no_links.
Definition hl (u : nat) (d i : str) : label := hd u d i [lit "heading"; lit "section"].
Theorem C42_html_refuted : ~ (forall ls, NoDup (map key_of ls) -> (forall l, In l ls -> strip (l_id l) = l_id l) -> html_labels ls = map Some ls).
Proof.
  intros H. specialize (H [hl 0 (lit "a.dm") (lit "intro"); hl 1 (lit "b.dm") (lit "intro")]).
  assert (E : html_labels [hl 0 (lit "a.dm") (lit "intro"); hl 1 (lit "b.dm") (lit "intro")] = [Some (hl 1 (lit "b.dm") (lit "intro")); Some (hl 1 (lit "b.dm") (lit "intro"))]) by (vm_compute; reflexivity).
  rewrite E in H. assert (C : hl 1 (lit "b.dm") (lit "intro") = hl 0 (lit "a.dm") (lit "intro")).
  { assert (X : Some (hl 1 (lit "b.dm") (lit "intro")) = Some (hl 0 (lit "a.dm") (lit "intro"))); [|congruence].
    assert (Y := H ltac:(cbn [map]; constructor; [cbn; intros [C|[]]; discriminate|constructor; [intros []|constructor]]) ltac:(intros l [<-|[<-|[]]]; vm_compute; reflexivity)).
    apply cons_inj in Y as [Y _]. exact Y. }
  apply (f_equal l_uid) in C. discriminate C.
Qed.

(** Finding: with both headings and documents, an abbreviated table has two items
    for another document. *)
Theorem C42_both_refuted : ~ (forall h e ds ws cur ls m' d, m_registered (run h) = false -> e_docs e = Some ds -> In (lit "abbreviated") ws ->
  get_labels e ws cur (run h) = (Ok ls, m') -> Some d <> cur -> length (filter (fun l => eqb (l_doc l) d) ls) <= 1).
Proof.
  intros H.
  set (h := [OAdd (lit "d1") (Some [lit "document"]) false None (Some (lit "a.dm")); OAdd (lit "h1") (Some [lit "heading"; lit "section"]) true None (Some (lit "a.dm"));
    OAdd (lit "h2") (Some [lit "heading"; lit "section"]) true None (Some (lit "b.dm"))]).
  set (e := Env None None (Some [lit "a.dm"; lit "b.dm"])). set (ws := [lit "all"; lit "headings"; lit "documents"; lit "abbreviated"]).
  destruct (get_labels e ws (Some (lit "b.dm")) (run h)) as [r m'] eqn:E.
  destruct r as [ls|x].
  - specialize (H h e _ ws (Some (lit "b.dm")) ls m' (lit "a.dm") eq_refl eq_refl ltac:(right; right; right; now left) E ltac:(discriminate)).
    assert (L : length (filter (fun l => eqb (l_doc l) (lit "a.dm")) match fst (get_labels e ws (Some (lit "b.dm")) (run h)) with Ok ls => ls | _ => [] end) = 2) by (vm_compute; reflexivity).
    rewrite E in L. cbn [fst] in L. lia.
  - assert (L : match fst (get_labels e ws (Some (lit "b.dm")) (run h)) with Ok ls => 0 | _ => 1 end = 0) by (vm_compute; reflexivity). rewrite E in L. discriminate L.
Qed.

Example C42_ex :
  let add := fun i d k => OAdd i (Some [lit "heading"; k]) true None (Some d) in
  let h := [add (lit "b1") (lit "b") (lit "section"); add (lit "a1") (lit "a") (lit "chapter"); add (lit "a2") (lit "a") (lit "section"); add (lit "b2") (lit "b") (lit "subsection"); add (lit "c1") (lit "c") (lit "section"); add (lit "c2") (lit "c") (lit "section")] in
  let e := Env None None (Some [lit "a"; lit "b"; lit "c"]) in
  m_registered (run h) = false /\
  match fst (get_labels e [lit "all"; lit "headings"; lit "abbreviated"] (Some (lit "b")) (run h)) with
  | Ok ls => map l_id ls = [lit "a1"; lit "b1"; lit "b2"; lit "c1"] /\ reference_tags 1 ls = Ok [(lit "a1", 2); (lit "b1", 3); (lit "b2", 4); (lit "c1", 3)] /\ html_labels ls = map Some ls
  | Raise _ => False
  end.
Proof. vm_compute. auto. Qed.

(** C79: the titles and the labels of documents *)
From Coq Require Import String List Bool Arith NArith ZArith Lia Permutation.
From Verif.Base Require Import Str StrFacts ListFacts Dict DictFacts Result PurePath.
From Verif.Model Require Import TagTree Labels DocLabels.
From Verif.Spec Require Import TagTree Labels DocLabels.
From Verif.Proof Require Import Attributes Labels Paths.
From Verif.Props Require TagTree Labels.
Import ListNotations.
Notation current := Verif.Spec.DocLabels.current.

(** ** Titles *)
Lemma strip_trimmed s : trimmed s (strip s).
Proof.
  destruct (strip_p_decomp is_space s) as (p & q & E & Hp & Hq & Hs). exists p, q. split; [exact E|].
  rewrite forallb_forall in Hp, Hq. split; [intros c [H|H]; auto|]. exact Hs.
Qed.
Lemma trimmed_unique s t : trimmed s t -> t = strip s.
Proof.
  intros (p & q & -> & H & H1 & H2). symmetry. apply strip_p_unique; [apply forallb_forall; auto|apply forallb_forall; auto|].
  split; assumption.
Qed.
Lemma entry_says e t : says e t -> entry_text e = Ok t.
Proof.
  destruct e as [s|c]; cbn [says entry_text].
  - now intros ->.
  - intros (H1 & H2 & H3). rewrite (Props.TagTree.C54_plain_text_tree c H1 H2). cbn [bind]. f_equal. symmetry. now apply trimmed_unique.
Qed.

(** The title of a document is what its entry title says; *)
Theorem C79_title : forall ctx sub e t, lookup (lit "title") ctx = Some e -> says e t -> title ctx sub = Ok t.
Proof. intros ctx sub e t H Ht. unfold title. rewrite H. now apply entry_says. Qed.

Lemma join_snoc s (l : list str) x y : join s (l ++ [x ++ y]) = join s (l ++ [x]) ++ y.
Proof.
  induction l as [|a l IH]; [reflexivity|]. cbn [app]. destruct l as [|b l]; cbn [app join].
  - cbn. now rewrite <- !app_assoc.
  - cbn [app] in IH. cbn [join] in IH. rewrite IH. now rewrite <- !app_assoc.
Qed.
(** without one it is the path of the file in the project, without the extension. *)
Theorem C79_name : forall ctx sub, lookup (lit "title") ctx = None -> parts sub <> nil ->
  exists t, title ctx sub = Ok t /\ path_str sub = t ++ path_suffix sub.
Proof.
  intros ctx sub H Hp. unfold title. rewrite H. unfold with_suffix.
  match goal with |- context [if ?b then Raise ValueError else _] => change b with false end.
  destruct sub as [ab ps]. cbn [parts absolute] in *. destruct ps as [|p0 ps]; [contradiction|].
  eexists. split; [reflexivity|]. unfold path_stem, path_suffix, path_name. cbn [parts absolute].
  set (l := p0 :: ps) in *. assert (El : l = removelast l ++ [last l nil]) by (apply app_removelast_last; exact Hp).
  rewrite app_nil_r. set (st := fst (split_name (last l nil))). set (su := snd (split_name (last l nil))).
  assert (En : last l nil = st ++ su) by (symmetry; apply split_name_app).
  unfold path_str. cbn [absolute parts].
  assert (J : join (lit "/") l = join (lit "/") (removelast l ++ [st]) ++ su) by (rewrite El at 1; rewrite En; apply join_snoc).
  destruct ab; [rewrite J, app_assoc; reflexivity|].
  assert (X : forall (m : list str), m <> nil -> match m with nil => lit "." | _ => join (lit "/") m end = join (lit "/") m) by (intros [|? ?] Hm; [contradiction|reflexivity]).
  rewrite (X l Hp), (X (removelast l ++ [st])); [exact J|]. intros C. apply app_eq_nil in C as [_ C]. discriminate C.
Qed.
(** The short title is what the entry short says, or else the title. *)
Theorem C79_short : forall ctx sub,
  (forall e t, lookup (lit "short") ctx = Some e -> says e t -> short ctx sub = Ok t) /\
  (lookup (lit "short") ctx = None -> short ctx sub = title ctx sub).
Proof.
  intros ctx sub. unfold short. split; [intros e t -> Ht; now apply entry_says|intros ->; reflexivity].
Qed.

(** ** Labels *)
Lemma filter_none {A} (f : A -> bool) l : (forall x, In x l -> f x = false) -> filter f l = nil.
Proof. induction l as [|x l IH]; intros H; [reflexivity|]. cbn [filter]. rewrite (H x (or_introl eq_refl)). apply IH. intros y Hy. apply H. now right. Qed.
Section Labels_.
Variable slugify : str -> str.
Variable sep : option str.

Notation ok_tags tags := (forall i k t, In (i, k, t) tags -> ~ In (lit "document") k).
Definition no_doc (l : label) : Prop := ~ for_document l.
Definition V (st : state) : list label := values (m_labels (st_m st)).
Definition kinded (l : label) : Prop := l_kind l <> None.

(** what holds for a document [s] that is current *)
Definition Q (s : source) (t : str) (st : state) : Prop :=
  exists l r, labels_of (d_id s) st = l :: r /\ label_for slugify st s t l /\ Forall no_doc r.
Definition St (st : state) : Prop := Inv (st_m st) /\ Forall kinded (V st).

Lemma mine_app d a b : filter (fun l => eqb (l_doc l) d) (a ++ b) = filter (fun l => eqb (l_doc l) d) a ++ filter (fun l => eqb (l_doc l) d) b.
Proof. apply filter_app. Qed.

(** adding a label *)
Lemma added id kind c t doc st :
  let out := add_titled sep id kind c t doc st in
  (exists e, fst out = Raise e /\ V (snd out) = V st /\ st_titles (snd out) = st_titles st /\ next_uid (st_m (snd out)) = next_uid (st_m st)) \/
  (exists l, fst out = Ok tt /\ V (snd out) = V st ++ [l] /\ l_kind l = Some kind /\ l_uid l = next_uid (st_m st) /\
    l_doc l = match fst (parse_id sep id) with Some d => d | None => doc end /\ l_id l = snd (parse_id sep id) /\
    st_titles (snd out) = set (l_uid l) t (st_titles st)).
Proof.
  cbv zeta. unfold add_titled, V. pose proof (add_label_cases id (Some kind) c sep (Some doc) (st_m st)) as H.
  destruct (add_label id (Some kind) c sep (Some doc) (st_m st)) as [x m]. cbn [fst snd] in H.
  destruct (parse_id sep id) as [d0 lid]. cbn [fst snd].
  assert (H' : let d := match d0 with Some d => d | None => doc end in
    let l := Label (next_uid (st_m st)) d lid (Some kind) c None no_links in
    if has (d, lid) (m_labels (st_m st)) then x = Raise DuplicateLabel /\ m = Manager (m_labels (st_m st)) false (next_uid (st_m st))
    else x = Ok l /\ m = Manager (m_labels (st_m st) ++ [((d, lid), l)]) false (S (next_uid (st_m st)))) by (destruct d0; exact H).
  clear H. cbv zeta in H'. set (d := match d0 with Some d => d | None => doc end) in *.
  destruct (has (d, lid) (m_labels (st_m st))); destruct H' as [-> ->].
  - left. eexists. cbn [fst snd st_m st_titles m_labels next_uid]. auto.
  - right. eexists. cbn [fst snd st_m st_titles m_labels next_uid]. split; [reflexivity|]. split; [unfold values; rewrite map_app; reflexivity|].
    cbn [l_kind l_uid l_doc l_id]. auto.
Qed.
Lemma added_St id kind c t doc st : St st -> St (snd (add_titled sep id kind c t doc st)).
Proof.
  intros [H1 H2]. split.
  - unfold add_titled. pose proof (Inv_add id (Some kind) c sep (Some doc) _ H1) as H.
    destruct (add_label id (Some kind) c sep (Some doc) (st_m st)) as [[l|e] m]; exact H.
  - destruct (added id kind c t doc st) as [(e & _ & E & _)|(l & _ & E & K & _)]; rewrite E; [exact H2|].
    apply Forall_app. split; [exact H2|]. constructor; [unfold kinded; rewrite K; discriminate|constructor].
Qed.
Lemma labels_of_V d st : labels_of d st = filter (fun l => eqb (l_doc l) d) (V st). Proof. reflexivity. Qed.

Lemma Q_uid s st l r : Inv (st_m st) -> labels_of (d_id s) st = l :: r -> l_uid l < next_uid (st_m st).
Proof.
  intros (_ & _ & _ & H) E. rewrite Forall_forall in H. apply H.
  assert (I : In l (labels_of (d_id s) st)) by (rewrite E; now left). apply filter_In in I. tauto.
Qed.
(** a label that is not for a document, or for another document, changes nothing for [s] *)
Lemma added_Q s t id kind c t' doc st : St st -> Q s t st ->
  ~ In (lit "document") kind \/ (fst (parse_id sep id) = None /\ doc <> d_id s) ->
  Q s t (snd (add_titled sep id kind c t' doc st)).
Proof.
  intros [HI _] (l & r & E & (L1 & L2 & L3 & L4) & F) Hk. destruct (added id kind c t' doc st) as [(e & _ & Ev & Et & _)|(x & _ & Ev & K & U & D & _ & Et)].
  - exists l, r. unfold labels_of in *. fold (V (snd (add_titled sep id kind c t' doc st))). rewrite Ev. split; [exact E|].
    split; [|exact F]. repeat split; auto. now rewrite Et.
  - assert (Ht : lookup (l_uid l) (st_titles (snd (add_titled sep id kind c t' doc st))) = Some t).
    { rewrite Et, lookup_set_neq; [exact L4|]. pose proof (Q_uid s st l r HI E). lia. }
    destruct (eqb (l_doc x) (d_id s)) eqn:Ex.
    + exists l, (r ++ [x]). rewrite labels_of_V, Ev, mine_app. cbn [filter]. rewrite Ex. rewrite <- labels_of_V, E. split; [reflexivity|].
      split; [repeat split; auto|]. apply Forall_app. split; [exact F|]. constructor; [|constructor].
      destruct Hk as [Hk|[Hp Hd]].
      * intros (ks & E1 & E2). rewrite K in E1. injection E1 as <-. contradiction.
      * exfalso. rewrite Hp in D. apply eqb_eq in Ex. congruence.
    + exists l, r. rewrite labels_of_V, Ev, mine_app. cbn [filter]. rewrite Ex, app_nil_r. rewrite <- labels_of_V. split; [exact E|].
      split; [repeat split; auto|exact F].
Qed.
Lemma add_tags_St doc tags : forall st, St st -> St (snd (add_tags sep doc tags st)).
Proof.
  induction tags as [|[[i k] t] tags IH]; intros st H; [exact H|]. cbn [add_tags].
  pose proof (added_St i k true t doc st H) as H1. destruct (add_titled sep i k true t doc st) as [[u|e] st1]; [|exact H1]. apply IH. exact H1.
Qed.
Lemma add_tags_Q s t doc tags : ok_tags tags -> forall st, St st -> Q s t st -> Q s t (snd (add_tags sep doc tags st)).
Proof.
  induction tags as [|[[i k] t'] tags IH]; intros Ht st H HQ; [exact HQ|]. cbn [add_tags].
  pose proof (added_St i k true t' doc st H) as H1.
  pose proof (added_Q s t i k true t' doc st H HQ (or_introl (Ht i k t' (or_introl eq_refl)))) as H2.
  destruct (add_titled sep i k true t' doc st) as [[u|e] st1]; [|exact H2]. apply IH; [|exact H1|exact H2].
  intros i' k' t'' Hin. apply (Ht i' k' t''). now right.
Qed.

(** the reset *)
Definition cleared (d : str) (st : state) : state := State (reset (Some [d]) (st_m st)) (st_titles st).
Lemma cleared_V d st : St st -> V (cleared d st) = filter (fun l => negb (eqb (l_doc l) d)) (V st).
Proof.
  intros [(Hw & Hk & _ & _) _]. unfold V, cleared. cbn [st_m]. rewrite reset_labels by exact Hw. unfold keyed in Hk. rewrite Hk at 1. unfold tie, values at 1.
  rewrite filter_map_comm, map_map. cbn [fst snd key_of]. rewrite map_id. apply filter_ext. intros l. cbn [mem existsb]. unfold mem. cbn. rewrite orb_false_r. now rewrite eqb_sym.
Qed.
Lemma cleared_St d st : St st -> St (cleared d st).
Proof.
  intros H. split; [apply Inv_reset; exact (proj1 H)|]. rewrite cleared_V by exact H. apply Forall_forall. intros x Hx. apply filter_In in Hx as [Hx _].
  destruct H as [_ H]. rewrite Forall_forall in H. auto.
Qed.
Lemma filter_filter {A} (f g : A -> bool) l : filter f (filter g l) = filter (fun x => g x && f x) l.
Proof. induction l as [|x l IH]; [reflexivity|]. cbn [filter]. destruct (g x); cbn [filter andb]; [destruct (f x)|]; now rewrite IH. Qed.
Lemma cleared_other d s st : St st -> d <> d_id s -> labels_of (d_id s) (cleared d st) = labels_of (d_id s) st.
Proof.
  intros H Hd. rewrite !labels_of_V, cleared_V by exact H. rewrite filter_filter. apply filter_ext. intros l.
  destruct (eqb_spec (l_doc l) (d_id s)) as [E|E]; [|now rewrite andb_false_r]. rewrite andb_true_r. apply negb_true_iff. apply eqb_neq. congruence.
Qed.
Lemma cleared_own d st : St st -> labels_of d (cleared d st) = nil.
Proof.
  intros H. rewrite labels_of_V, cleared_V by exact H. rewrite filter_filter. induction (V st) as [|x l IH]; [reflexivity|]. cbn [filter].
  destruct (eqb (l_doc x) d); exact IH.
Qed.

Lemma load_eq s st : load_labels slugify sep s st =
  (let '(x, st) := process_document_label slugify sep s (cleared (d_id s) st) in
   match x with Ok _ => add_tags sep (d_id s) (d_tags s) st | Raise e => (Raise e, st) end).
Proof. reflexivity. Qed.
Lemma process_St s st : St st -> St (snd (process_document_label slugify sep s st)).
Proof. intros H. unfold process_document_label. destruct (short (d_ctx s) (d_sub s)); [|exact H]. now apply added_St. Qed.
Lemma load_St s st : St st -> St (snd (load_labels slugify sep s st)).
Proof.
  intros H. rewrite load_eq. pose proof (process_St s _ (cleared_St (d_id s) _ H)) as H1.
  destruct (process_document_label slugify sep s (cleared (d_id s) st)) as [[u|e] st1]; [|exact H1]. now apply add_tags_St.
Qed.
Lemma load_other s t s' st : St st -> Q s t st -> d_id s' <> d_id s ->
  names_label (sep_of sep) (document_label_id slugify (d_sub s')) -> ok_tags (d_tags s') ->
  Q s t (snd (load_labels slugify sep s' st)).
Proof.
  intros H HQ Hd Hn Ht. rewrite load_eq. pose proof (cleared_St (d_id s') _ H) as H0.
  assert (Q0 : Q s t (cleared (d_id s') st)).
  { destruct HQ as (l & r & E & L & F). exists l, r. rewrite cleared_other by assumption. auto. }
  pose proof (process_St s' _ H0) as H1.
  assert (Q1 : Q s t (snd (process_document_label slugify sep s' (cleared (d_id s') st)))).
  { unfold process_document_label. destruct (short (d_ctx s') (d_sub s')) as [t'|]; [|exact Q0].
    apply added_Q; [exact H0|exact Q0|]. right. split; [|exact Hd]. unfold parse_id. pose proof (Props.Labels.parse_label sep _ Hn) as E. unfold parse_id in E. now rewrite E. }
  destruct (process_document_label slugify sep s' (cleared (d_id s') st)) as [[u|e] st1]; [|exact Q1]. now apply add_tags_Q.
Qed.
Lemma has_not_In (ls : labels) d i : keyed ls -> wf ls -> filter (fun l => eqb (l_doc l) d) (values ls) = nil -> has (d, i) ls = false.
Proof.
  intros Hk Hw E. destruct (has (d, i) ls) eqn:Eh; [|reflexivity]. apply has_lookup in Eh as [x Ex].
  apply Props.Labels.lookup_keyed in Ex as [Hx Ek]; auto. exfalso. assert (I : In x (filter (fun l => eqb (l_doc l) d) (values ls))).
  { apply filter_In. split; [exact Hx|]. unfold key_of in Ek. injection Ek as <- _. apply eqb_refl. }
  rewrite E in I. destruct I.
Qed.
Lemma load_own s t st : St st -> short (d_ctx s) (d_sub s) = Ok t ->
  names_label (sep_of sep) (document_label_id slugify (d_sub s)) -> ok_tags (d_tags s) ->
  Q s t (snd (load_labels slugify sep s st)) /\ exists e, process_document_label slugify sep s (cleared (d_id s) st) = (Ok tt, e).
Proof.
  intros H Hs Hn Ht. rewrite load_eq. pose proof (cleared_St (d_id s) _ H) as H0. pose proof (process_St s _ H0) as H1.
  pose proof (Props.Labels.parse_label sep _ Hn) as Ep.
  assert (G : exists st1, process_document_label slugify sep s (cleared (d_id s) st) = (Ok tt, st1) /\ Q s t st1).
  { unfold process_document_label. rewrite Hs. pose proof (cleared_own (d_id s) st H) as E0.
    destruct (added (document_label_id slugify (d_sub s)) (document_kind (d_level s)) false t (d_id s) (cleared (d_id s) st)) as [(e & Ef & _)|(x & Ef & Ev & K & U & D & I & Et)].
    - exfalso. unfold add_titled in Ef. pose proof (add_label_cases (document_label_id slugify (d_sub s)) (Some (document_kind (d_level s))) false sep (Some (d_id s)) (st_m (cleared (d_id s) st))) as C.
      rewrite Ep in C. cbv beta iota zeta in C. rewrite has_not_In in C; [|exact (proj1 (proj2 (proj1 H0)))|exact (proj1 (proj1 H0))|exact E0].
      destruct (add_label (document_label_id slugify (d_sub s)) (Some (document_kind (d_level s))) false sep (Some (d_id s)) (st_m (cleared (d_id s) st))) as [y m].
      cbn [fst snd] in C. destruct C as [-> _]. discriminate Ef.
    - destruct (add_titled sep (document_label_id slugify (d_sub s)) (document_kind (d_level s)) false t (d_id s) (cleared (d_id s) st)) as [y st1]. cbn [fst snd] in *. subst y.
      exists st1. split; [reflexivity|]. rewrite Ep in D, I. cbn [fst snd] in D, I. exists x, nil. rewrite labels_of_V, Ev, mine_app. rewrite <- labels_of_V, E0.
      cbn [filter app]. rewrite D, eqb_refl. split; [reflexivity|]. split; [|constructor]. repeat split; auto. rewrite Et, lookup_set_eq. reflexivity. }
  destruct G as (st1 & E & Q1). rewrite E in *. cbn [snd] in H1. split; [now apply add_tags_Q|exists st1; reflexivity].
Qed.

(** looking up *)
Lemma mine_arranged ids L d : In d ids -> filter (fun l => eqb (l_doc l) d) (arranged ids L) = filter (fun l => eqb (l_doc l) d) L.
Proof.
  intros Hd. rewrite Props.Labels.arranged_first_mentions. apply Props.Labels.first_mentions_In in Hd. pose proof (Props.Labels.first_mentions_NoDup ids) as N.
  revert Hd N. generalize (first_mentions ids). intros ds. induction ds as [|x ds IH]; intros Hd N; [destruct Hd|].
  cbn [flat_map]. rewrite mine_app. inversion N as [|? ? N1 N2]; subst. rewrite filter_filter.
  assert (Z : ~ In d ds -> filter (fun l => eqb (l_doc l) d) (flat_map (fun y => filter (fun l => eqb (l_doc l) y) L) ds) = nil).
  { intros Hn. clear -Hn. induction ds as [|y ds IH]; [reflexivity|]. cbn [flat_map]. rewrite mine_app, filter_filter, IH by (intros C; apply Hn; now right).
    rewrite app_nil_r. apply filter_none. intros l _. destruct (eqb_spec (l_doc l) y) as [E1|]; [|reflexivity].
    apply eqb_neq. intros E2. apply Hn. left. congruence. }
  destruct (eqb_spec x d) as [->|Hx].
  - rewrite Z by exact N1. rewrite app_nil_r. apply filter_ext. intros l. now destruct (eqb (l_doc l) d).
  - destruct Hd as [C|Hd]; [contradiction|]. rewrite IH by assumption.
    assert (Y : filter (fun l => eqb (l_doc l) x && eqb (l_doc l) d) L = nil).
    { apply filter_none. intros l _. destruct (eqb_spec (l_doc l) x) as [E1|]; [|reflexivity]. apply eqb_neq. intros E2. apply Hx. congruence. }
    rewrite Y. reflexivity.
Qed.
Lemma mine_ident d L L' : map ident L = map ident L' -> map ident (filter (fun l => eqb (l_doc l) d) L) = map ident (filter (fun l => eqb (l_doc l) d) L').
Proof.
  revert L'. induction L as [|x L IH]; intros [|y L'] E; cbn [map] in E; try discriminate; [reflexivity|].
  apply cons_inj in E as [E1 E2]. cbn [filter]. assert (Ed : l_doc x = l_doc y) by (unfold ident in E1; congruence). rewrite Ed.
  destruct (eqb (l_doc y) d); [cbn [map]; rewrite E1|]; rewrite (IH _ E2); reflexivity.
Qed.
Lemma register_V e st : Inv (st_m st) -> m_registered (st_m st) = false ->
  map ident (V (State (register e (st_m st)) (st_titles st))) = map ident (arranged (docs_of (e_docs e) (V st)) (V st)).
Proof.
  intros (Hw & Hk & _ & _) Hr. unfold V, register. cbn [st_m]. rewrite Hr. cbn [m_labels]. exact (proj2 (proj2 (registration_keyed e _ Hw Hk))).
Qed.
Lemma Forall_ident (P : option (list str) -> Prop) L L' : map ident L = map ident L' -> Forall (fun l => P (l_kind l)) L' -> Forall (fun l => P (l_kind l)) L.
Proof.
  revert L'. induction L as [|x L IH]; intros [|y L'] E H; cbn [map] in E; try discriminate; [constructor|].
  apply cons_inj in E as [E1 E2]. inversion H; subst. constructor; [|eapply IH; eauto].
  assert (Ek : l_kind x = l_kind y) by (unfold ident in E1; congruence). now rewrite Ek.
Qed.
Lemma query_St e st : St st -> St (State (register e (st_m st)) (st_titles st)).
Proof.
  intros [H1 H2]. split; [now apply Inv_register|]. destruct (m_registered (st_m st)) eqn:Er; [unfold V, register; cbn [st_m]; rewrite Er; exact H2|].
  apply (Forall_ident (fun k => k <> None) _ _ (register_V e st H1 Er)). apply Forall_forall. intros x Hx.
  eapply Permutation_in in Hx; [|apply arranged_perm]. apply filter_In in Hx as [Hx _]. rewrite Forall_forall in H2. exact (H2 x Hx).
Qed.
Lemma query_Q s t e st : St st -> Q s t st -> in_project e (d_id s) -> Q s t (State (register e (st_m st)) (st_titles st)).
Proof.
  intros [H1 H2] (l & r & E & (L1 & L2 & L3 & L4) & F) Hp. destruct (m_registered (st_m st)) eqn:Er.
  - exists l, r. unfold labels_of, register in *. cbn [st_m]. rewrite Er. split; [exact E|]. split; [repeat split; auto|exact F].
  - assert (Hd : In (d_id s) (docs_of (e_docs e) (V st))).
    { unfold docs_of, in_project in *. destruct (e_docs e); [exact Hp|]. assert (I : In l (labels_of (d_id s) st)) by (rewrite E; now left).
      apply filter_In in I as [I _]. rewrite <- L1. now apply in_map. }
    pose proof (mine_ident (d_id s) _ _ (register_V e st H1 Er)) as M. rewrite mine_arranged in M by exact Hd. rewrite <- !labels_of_V, E in M.
    destruct (labels_of (d_id s) (State (register e (st_m st)) (st_titles st))) as [|l' r'] eqn:E'; [discriminate M|]. cbn [map] in M. apply cons_inj in M as [M1 M2].
    assert (X : l_uid l' = l_uid l /\ l_doc l' = l_doc l /\ l_id l' = l_id l /\ l_kind l' = l_kind l) by (unfold ident in M1; injection M1 as -> -> -> -> _; auto).
    destruct X as (X1 & X2 & X3 & X4). exists l', r'. split; [exact E'|]. split; [repeat split; try congruence; cbn [st_titles]; now rewrite X1|].
    apply (Forall_ident (fun k => ~ exists ks, k = Some ks /\ In (lit "document") ks) _ _ M2). exact F.
Qed.

Lemma after_St h : St (after slugify sep h).
Proof.
  unfold after. assert (G : forall h st, St st -> St (fold_left (fun st ev => do_event slugify sep ev st) h st)).
  { clear h. induction h as [|ev h IH]; intros st H; [exact H|]. cbn [fold_left]. apply IH. destruct ev; cbn [do_event]; [now apply load_St|now apply query_St]. }
  apply G. split; [repeat split; constructor|constructor].
Qed.
Lemma current_Q h s t : usual slugify sep h -> current h s -> short (d_ctx s) (d_sub s) = Ok t -> Q s t (after slugify sep h).
Proof.
  intros Hu (a & b & -> & Hb1 & Hb2) Hs. unfold after. rewrite fold_left_app. cbn [fold_left].
  pose proof (after_St a) as Ha. unfold after in Ha. set (st := fold_left (fun st ev => do_event slugify sep ev st) a new_state) in *.
  destruct (Hu s) as [Hn Ht]; [apply in_or_app; right; now left|].
  pose proof (proj1 (load_own s t st Ha Hs Hn Ht)) as H1. pose proof (load_St s st Ha) as H2. cbn [do_event].
  set (st1 := snd (load_labels slugify sep s st)) in *. clearbody st1.
  assert (Hu' : forall s', In (Load s') b -> In (Load s') (a ++ Load s :: b)) by (intros s' Hi; apply in_or_app; right; now right).
  assert (Hub : usual slugify sep b) by (intros s' Hi; apply Hu, Hu', Hi). clear Hu Hu' Hn Ht. revert st1 H1 H2.
  induction b as [|ev b IH]; intros st1 H1 H2; [exact H1|]. cbn [fold_left].
  assert (IH' := IH (fun s' Hi => Hb1 s' (or_intror Hi)) (fun e Hi => Hb2 e (or_intror Hi)) (fun s' Hi => Hub s' (or_intror Hi))). destruct ev as [s'|e]; cbn [do_event].
  - destruct (Hub s' (or_introl eq_refl)) as [Hn' Ht']. apply IH'; [|now apply load_St]. apply load_other; auto. apply Hb1. now left.
  - apply IH'; [|now apply query_St]. apply query_Q; auto. apply Hb2. now left.
Qed.
End Labels_.

(** A document has exactly one label for itself, it comes before the labels of the tags in the document, and its title
    is the short title the document had when it was last loaded - however often and in whatever order documents were
    loaded and labels looked up, and also if tags could not be loaded or other documents made labels for it. *)
Theorem C79_label : forall slugify sep h s t,
  usual slugify sep h -> current h s -> short (d_ctx s) (d_sub s) = Ok t ->
  exists l r, labels_of (d_id s) (after slugify sep h) = l :: r /\ label_for slugify (after slugify sep h) s t l /\
    forall x, In x r -> ~ for_document x.
Proof.
  intros slugify sep h s t Hu Hc Hs. destruct (current_Q slugify sep h s t Hu Hc Hs) as (l & r & E & L & F). exists l, r. split; [exact E|]. split; [exact L|].
  rewrite Forall_forall in F. exact F.
Qed.

(** The labels of a document with their ids, kinds and titles *)
Definition view (d : str) (st : state) := map (fun l => (l_id l, l_kind l, lookup (l_uid l) (st_titles st))) (labels_of d st).
Lemma added_view sep id k c t d st : St st -> names_label (sep_of sep) id -> fst (add_titled sep id k c t d st) = Ok tt ->
  view d (snd (add_titled sep id k c t d st)) = view d st ++ [(id, Some k, Some t)].
Proof.
  intros HS Hn Ho. destruct (added sep id k c t d st) as [(e & E & _)|(x & _ & Ev & K & U & D & I & Et)]; [congruence|].
  rewrite (Props.Labels.parse_label _ _ Hn) in D, I. cbn [fst snd] in D, I. unfold view. rewrite labels_of_V, Ev, mine_app. cbn [filter]. rewrite D, eqb_refl, map_app. cbn [map].
  rewrite K, I, Et, lookup_set_eq. f_equal. rewrite <- labels_of_V. apply map_ext_in. intros l Hl. apply filter_In in Hl as [Hl _].
  destruct HS as [(_ & _ & _ & HU) _]. rewrite Forall_forall in HU. specialize (HU l Hl). f_equal. rewrite lookup_set_neq; [reflexivity|]. lia.
Qed.
Lemma add_tags_view sep d tags : (forall i k t, In (i, k, t) tags -> names_label (sep_of sep) i) -> forall st, St st -> fst (add_tags sep d tags st) = Ok tt ->
  view d (snd (add_tags sep d tags st)) = view d st ++ map (fun x => (fst (fst x), Some (snd (fst x)), Some (snd x))) tags.
Proof.
  induction tags as [|[[i k] t] tags IH]; intros Hn st HS Ho; [cbn; now rewrite app_nil_r|]. cbn [add_tags] in *.
  pose proof (added_St sep i k true t d st HS) as H1. pose proof (added_view sep i k true t d st HS (Hn i k t (or_introl eq_refl))) as Hv.
  destruct (add_titled sep i k true t d st) as [[[]|e] st1]; [|discriminate Ho]. cbn [fst snd] in *.
  rewrite (IH (fun i' k' t' H => Hn i' k' t' (or_intror H)) st1 H1 Ho), (Hv eq_refl), <- app_assoc. reflexivity.
Qed.
(** When a document could be loaded, its labels are its own label and those its tags made, in their order. *)
Theorem C79_loaded : forall slugify sep h s t,
  usual slugify sep (h ++ [Load s]) -> short (d_ctx s) (d_sub s) = Ok t ->
  (forall i k t, In (i, k, t) (d_tags s) -> names_label (sep_of sep) i) ->
  fst (load_labels slugify sep s (after slugify sep h)) = Ok tt ->
  let st := after slugify sep (h ++ [Load s]) in
  map (fun l => (l_id l, l_kind l, lookup (l_uid l) (st_titles st))) (labels_of (d_id s) st) =
  (lit "doc:" ++ slugify (path_str (d_sub s)), Some [lit "document"; lit "document-level-" ++ str_of_nat (d_level s)], Some t) ::
  map (fun x => (fst (fst x), Some (snd (fst x)), Some (snd x))) (d_tags s).
Proof.
  intros slugify sep h s t Hu Hs Hn Ho. cbv zeta. unfold after at 1 2. rewrite !fold_left_app. cbn [fold_left do_event]. fold (after slugify sep h).
  pose proof (after_St slugify sep h) as HS. set (st := after slugify sep h) in *. clearbody st.
  destruct (Hu s) as [Hd Ht]; [apply in_or_app; right; now left|].
  pose proof (cleared_St (d_id s) st HS) as H0. rewrite load_eq in Ho. rewrite load_eq.
  destruct (proj2 (load_own slugify sep s t st HS Hs Hd Ht)) as (st1 & E1).
  pose proof (process_St slugify sep s _ H0) as H1. rewrite E1 in *. cbn [snd] in H1.
  assert (V1 : view (d_id s) st1 = [(document_label_id slugify (d_sub s), Some (document_kind (d_level s)), Some t)]).
  { unfold process_document_label in E1. rewrite Hs in E1. pose proof (added_view sep _ (document_kind (d_level s)) false t (d_id s) _ H0 Hd) as A. fold (document_label_id slugify (d_sub s)) in A.
    rewrite E1 in A. cbn [fst snd] in A. rewrite (A eq_refl). unfold view. rewrite cleared_own by exact HS. reflexivity. }
  pose proof (add_tags_view sep (d_id s) (d_tags s) Hn st1 H1 Ho) as A. rewrite V1 in A. exact A.
Qed.

Lemma filter_all {A} (f : A -> bool) l : (forall x, In x l -> f x = true) -> filter f l = l.
Proof. induction l as [|x l IH]; intros H; [reflexivity|]. cbn [filter]. rewrite (H x (or_introl eq_refl)). f_equal. apply IH. intros y Hy. apply H. now right. Qed.
Lemma filter_flat_map {A B} (f : B -> bool) (g : A -> list B) l : filter f (flat_map g l) = flat_map (fun x => filter f (g x)) l.
Proof. induction l as [|x l IH]; [reflexivity|]. cbn [flat_map]. now rewrite filter_app, IH. Qed.
Lemma load_registered slugify sep s st : m_registered (st_m (snd (load_labels slugify sep s st))) = false.
Proof.
  assert (A : forall id k c t d st, m_registered (st_m (snd (add_titled sep id k c t d st))) = false).
  { intros id k c t d st0. unfold add_titled. pose proof (add_label_cases id (Some k) c sep (Some d) (st_m st0)) as C.
    destruct (add_label id (Some k) c sep (Some d) (st_m st0)) as [x m]. cbn [fst snd] in C. destruct (parse_id sep id) as [[d0|] lid]; cbv zeta in C;
    (match type of C with if ?b then _ else _ => destruct b end); destruct C as [-> ->]; reflexivity. }
  assert (B : forall d tags st, m_registered (st_m st) = false -> m_registered (st_m (snd (add_tags sep d tags st))) = false).
  { intros d tags. induction tags as [|[[i k] t] tags IH]; intros st0 H; [exact H|]. cbn [add_tags]. pose proof (A i k true t d st0) as H1.
    destruct (add_titled sep i k true t d st0) as [[u|e] st1]; [apply IH; exact H1|exact H1]. }
  rewrite load_eq. assert (P : m_registered (st_m (snd (process_document_label slugify sep s (cleared (d_id s) st)))) = false).
  { unfold process_document_label. destruct (short (d_ctx s) (d_sub s)); [apply A|reflexivity]. }
  destruct (process_document_label slugify sep s (cleared (d_id s) st)) as [[u|e] st1]; [apply B; exact P|exact P].
Qed.

(** Listing the labels of kind document - as a table of contents of documents does - gives the labels of the documents of
    the project, each once, in the order of the documents. *)
Theorem C79_listed : forall slugify sep h s0 e docs titles,
  let st := after slugify sep (h ++ [Load s0]) in
  usual slugify sep (h ++ [Load s0]) -> e_docs e = Some (map d_id docs) -> NoDup (map d_id docs) ->
  Forall2 (fun s t => current (h ++ [Load s0]) s /\ short (d_ctx s) (d_sub s) = Ok t) docs titles ->
  exists ls, fst (get_labels_by_kind e None [lit "document"] (st_m st)) = Ok ls /\
    Forall2 (fun st' l => label_for slugify st (fst st') (snd st') l) (combine docs titles) ls.
Proof.
  intros slugify sep h s0 e docs titles st Hu He Nd Hd. assert (HS : St st) by (apply after_St).
  assert (Hr : m_registered (st_m st) = false).
  { unfold st, after. rewrite fold_left_app. cbn [fold_left do_event]. apply load_registered. }
  unfold get_labels_by_kind. cbn [fst]. set (V' := values (m_labels (register e (st_m st)))).
  pose proof (query_St e st HS) as [HI' HK]. unfold V in HK. cbn [st_m] in HK. fold V' in HK.
  rewrite Props.Labels.by_kinds_ok by (rewrite Forall_forall in HK; exact HK). cbn [flat_map]. rewrite app_nil_r. eexists. split; [reflexivity|].
  pose proof (register_V e st (proj1 HS) Hr) as M. unfold V at 1 in M. cbn [st_m] in M. fold V' in M. unfold docs_of in M. rewrite He in M.
  rewrite Props.Labels.arranged_first_mentions in M.
  assert (FM : forall ds, NoDup ds -> first_mentions ds = ds).
  { clear. induction ds as [|d ds IH]; intros N; [reflexivity|]. inversion N as [|? ? N1 N2]; subst. cbn [first_mentions]. rewrite IH by exact N2. f_equal.
    apply filter_all. intros x Hx. apply negb_true_iff. apply eqb_neq. intros ->. contradiction. }
  rewrite FM in M by exact Nd. clear FM.
  set (f := fun l : label => match l_kind l with Some ks => mem (lit "document") ks | None => false end).
  assert (FI : forall L L', map ident L = map ident L' -> map ident (filter f L) = map ident (filter f L')).
  { clear. induction L as [|x L IH]; intros [|y L'] E; cbn [map] in E; try discriminate; [reflexivity|]. apply cons_inj in E as [E1 E2]. cbn [filter].
    assert (Ek : f x = f y) by (unfold f; assert (Ek : l_kind x = l_kind y) by (unfold ident in E1; congruence); now rewrite Ek). rewrite Ek.
    destruct (f y); [cbn [map]; rewrite E1|]; rewrite (IH _ E2); reflexivity. }
  apply FI in M. rewrite filter_flat_map in M.
  assert (G : Forall2 (fun st' l => label_for slugify st (fst st') (snd st') l) (combine docs titles)
    (flat_map (fun d => filter f (filter (fun l => eqb (l_doc l) d) (V st))) (map d_id docs))).
  { clear M Nd He FI. induction Hd as [|s t docs titles [Hc Hs] Hd IH]; [constructor|]. cbn [map flat_map combine].
    destruct (current_Q slugify sep _ s t Hu Hc Hs) as (l & r & E & L & F). fold st in E, L. rewrite <- labels_of_V, E.
    assert (El : filter f (l :: r) = [l]).
    { cbn [filter]. assert (Ef : f l = true) by (unfold f; destruct L as (_ & _ & -> & _); reflexivity). rewrite Ef. f_equal. apply filter_none. intros x Hx.
      rewrite Forall_forall in F. specialize (F x Hx). unfold f. destruct (l_kind x) as [ks|] eqn:Ek; [|reflexivity]. apply mem_not_In. intros C. apply F. exists ks. auto. }
    rewrite El. cbn [app]. constructor; [exact L|exact IH]. }
  revert G M. generalize (flat_map (fun d => filter f (filter (fun l => eqb (l_doc l) d) (V st))) (map d_id docs)). fold f. generalize (filter f V').
  generalize (combine docs titles). clear. intros ps L L' G. revert L. induction G as [|p l ps L' H G IH]; intros [|x L] M; cbn [map] in M; try discriminate; constructor.
  - apply cons_inj in M as [M _]. unfold ident in M. injection M as M1 M2 M3 M4 _. destruct H as (H1 & H2 & H3 & H4). repeat split; congruence.
  - apply IH. apply cons_inj in M as [_ M]. exact M.
Qed.

(** A reference with the id of the document and the id of its label finds the label. *)
Theorem C79_reference : forall slugify sep h s t e id,
  let st := after slugify sep h in
  usual slugify sep h -> current h s -> short (d_ctx s) (d_sub s) = Ok t -> in_project e (d_id s) ->
  sep_of sep <> nil -> names_both (sep_of sep) id (d_id s) (lit "doc:" ++ slugify (path_str (d_sub s))) ->
  exists l, fst (get_label e sep id (st_m st)) = Ok l /\ label_for slugify st s t l.
Proof.
  intros slugify sep h s t e id st Hu Hc Hs Hp Hn Hi. pose proof (after_St slugify sep h) as HS. fold st in HS.
  destruct (query_Q slugify s t e st HS (current_Q slugify sep h s t Hu Hc Hs) Hp) as (l & r & E & L & _).
  exists l. split; [|exact L]. unfold get_label. rewrite (Props.Labels.parse_both _ _ _ _ Hn Hi). cbn [fst].
  destruct (query_St e st HS) as [(Hw & Hk & _ & _) _]. cbn [st_m] in Hw, Hk.
  assert (I : In l (labels_of (d_id s) (State (register e (st_m st)) (st_titles st)))) by (rewrite E; now left).
  apply filter_In in I as [I _]. cbn [st_m] in I. destruct L as (L1 & L2 & _).
  rewrite (proj2 (Props.Labels.lookup_keyed _ _ l Hw Hk)); [reflexivity|]. split; [exact I|]. unfold key_of. now rewrite L1, L2.
Qed.
(** With the id of the label alone it finds the label if no other document has a label with this id. *)
Theorem C79_short_reference_partial : forall slugify sep h s t e,
  let st := after slugify sep h in
  let id := lit "doc:" ++ slugify (path_str (d_sub s)) in
  usual slugify sep h -> current h s -> short (d_ctx s) (d_sub s) = Ok t -> in_project e (d_id s) ->
  (forall x, In x (values (m_labels (register e (st_m st)))) -> l_id x = id -> l_doc x = d_id s) ->
  exists l, fst (get_label e sep id (st_m st)) = Ok l /\ label_for slugify st s t l.
Proof.
  intros slugify sep h s t e st id Hu Hc Hs Hp Ho. pose proof (after_St slugify sep h) as HS. fold st in HS.
  destruct (query_Q slugify s t e st HS (current_Q slugify sep h s t Hu Hc Hs) Hp) as (l & r & E & L & _).
  exists l. split; [|exact L]. unfold get_label.
  assert (Hn : names_label (sep_of sep) id). { destruct Hc as (a & b & Eh & _). apply (Hu s). rewrite Eh. apply in_or_app. right. now left. }
  rewrite (Props.Labels.parse_label _ _ Hn). cbn [fst].
  destruct (query_St e st HS) as [(Hw & Hk & _ & _) _]. cbn [st_m] in Hw, Hk.
  assert (I : In l (labels_of (d_id s) (State (register e (st_m st)) (st_titles st)))) by (rewrite E; now left).
  apply filter_In in I as [I _]. cbn [st_m] in I. destruct L as (L1 & L2 & _).
  destruct (find (fun kl : str * str * label => eqb (snd (fst kl)) id) (m_labels (register e (st_m st)))) as [[k x]|] eqn:Ef.
  - apply find_some in Ef as [Hx Ex]. cbn [fst snd] in Ex. apply eqb_eq in Ex. pose proof (In_lookup _ _ _ Hw Hx) as El.
    apply (Props.Labels.lookup_keyed _ _ _ Hw Hk) in El as [Ix Ek]. subst k. cbn [key_of snd] in Ex.
    pose proof (Ho x Ix Ex) as Hd. f_equal.
    assert (E1 : lookup (key_of x) (m_labels (register e (st_m st))) = Some l).
    { apply (Props.Labels.lookup_keyed _ _ _ Hw Hk). split; [exact I|]. unfold key_of. rewrite L1, L2, Hd. unfold id in Ex. now rewrite Ex. }
    pose proof (In_lookup _ _ _ Hw Hx) as E2. congruence.
  - exfalso. unfold keyed in Hk. rewrite Hk in Ef. assert (Il : In (key_of l, l) (tie (values (m_labels (register e (st_m st)))))) by (unfold tie; apply in_map_iff; exists l; auto).
    pose proof (find_none _ _ Ef _ Il) as C. cbn [fst snd key_of] in C. unfold id in C. rewrite L2 in C. rewrite eqb_refl in C. discriminate C.
Qed.
(** The separator that is used if nothing else is asked for is in no id of a label of a document, as slugs have no colons. *)
Theorem C79_usual : forall slugify h, (forall x, ~ In 58%N (slugify x)) ->
  (forall s i k t, In (Load s) h -> In (i, k, t) (d_tags s) -> ~ In (lit "document") k) -> usual slugify None h.
Proof.
  intros slugify h Hs Hk s Hin. split; [|intros i k t; exact (Hk s i k t Hin)]. intros a b E. cbn [sep_of] in E. unfold default_sep in E.
  specialize (Hs (path_str (d_sub s))). revert E Hs. generalize (slugify (path_str (d_sub s))). clear. intros x E Hs.
  change (lit "doc:") with [100%N; 111%N; 99%N; 58%N] in E. change (lit "::") with [58%N; 58%N] in E.
  destruct a as [|c1 [|c2 [|c3 [|c4 a]]]]; cbn [app] in E; try discriminate E.
  - injection E as _ _ _ E. apply Hs. rewrite E. now left.
  - injection E as _ _ _ _ E. apply Hs. rewrite E. apply in_or_app. right. now left.
Qed.

(** ** Findings *)
Definition dashes (s : str) : str := map (fun c => if mem c [46%N; 47%N; 58%N] then 45%N else c) s.
Definition plain_source (p : str) : source := Src (of_str p) p 1 nil nil.
(** The label of the document a-b.dm has the same id as that of the document b.dm in the directory a: a reference to the
    one may lead to the other. *)
Theorem C79_short_reference_refuted :
  ~ (forall slugify sep h s t e, usual slugify sep h -> current h s -> short (d_ctx s) (d_sub s) = Ok t -> in_project e (d_id s) ->
     exists l, fst (get_label e sep (lit "doc:" ++ slugify (path_str (d_sub s))) (st_m (after slugify sep h))) = Ok l /\ l_doc l = d_id s).
Proof.
  intros H. specialize (H dashes None [Load (plain_source (lit "a/b.dm")); Load (plain_source (lit "a-b.dm"))] (plain_source (lit "a-b.dm"))
    (lit "a-b") (Env None None (Some [lit "a/b.dm"; lit "a-b.dm"]))).
  destruct H as (l & E & D).
  - apply C79_usual.
    + intros x C. unfold dashes in C. apply in_map_iff in C as (c & E & _). destruct (mem c [46%N; 47%N; 58%N]) eqn:Em; [discriminate E|]. subst c. discriminate Em.
    + intros s i k t [E|[E|[]]] Ht; injection E as <-; destruct Ht.
  - exists [Load (plain_source (lit "a/b.dm"))], nil. split; [reflexivity|]. split; intros ? [].
  - vm_compute. reflexivity.
  - right. left. reflexivity.
  - vm_compute in E. injection E as <-. vm_compute in D. discriminate D.
Qed.
(** A single colon as separator between documents and labels takes the label of a document away from the document. *)
Theorem C79_separator_refuted :
  ~ (forall slugify sep h s t, current h s -> short (d_ctx s) (d_sub s) = Ok t ->
     (forall s' i k t', In (Load s') h -> In (i, k, t') (d_tags s') -> ~ In (lit "document") k) ->
     exists l, In l (labels_of (d_id s) (after slugify sep h)) /\ for_document l).
Proof.
  intros H. specialize (H dashes (Some (lit ":")) [Load (plain_source (lit "b.dm"))] (plain_source (lit "b.dm")) (lit "b")).
  destruct H as (l & I & _).
  - exists nil, nil. split; [reflexivity|]. split; intros ? [].
  - vm_compute. reflexivity.
  - intros s i k t [E|[]] Ht; injection E as <-; destruct Ht.
  - vm_compute in I. exact I.
Qed.

(** Non-vacuity: a project of two documents, one with a short title and a heading.  The second one is changed and loaded
    again after its labels were looked up. *)
Example C79_ex :
  let a := Src (of_str (lit "main.dm")) (lit "main.dm") 1 [(lit "title", EText (lit "The book")); (lit "short", ETag (OList [OStr (lit " A "); OTag 0 0 0 (OStr (lit "book ")) ]))] [(lit "sec:x", [lit "heading"; lit "section"], lit "x")] in
  let b := Src (of_str (lit "sub/b.dm")) (lit "sub/b.dm") 2 nil nil in
  let b' := Src (of_str (lit "sub/b.dm")) (lit "sub/b.dm") 2 [(lit "title", EText (lit "New"))] nil in
  let e := Env None None (Some [lit "main.dm"; lit "sub/b.dm"]) in
  let h := [Load a; Load b; Query e] in
  let st := after dashes None (h ++ [Load b']) in
  usual dashes None (h ++ [Load b']) /\ current (h ++ [Load b']) a /\ current (h ++ [Load b']) b' /\
  short (d_ctx a) (d_sub a) = Ok (lit "A book") /\ short (d_ctx b) (d_sub b) = Ok (lit "sub/b") /\ short (d_ctx b') (d_sub b') = Ok (lit "New") /\
  says (ETag (OList [OStr (lit " A "); OTag 0 0 0 (OStr (lit "book ")) ])) (lit "A book") /\
  fst (load_labels dashes None b' (after dashes None h)) = Ok tt /\
  exists la lb, fst (get_labels_by_kind e None [lit "document"] (st_m st)) = Ok [la; lb] /\ label_for dashes st a (lit "A book") la /\ label_for dashes st b' (lit "New") lb.
Proof.
  cbv zeta. set (h := _ ++ _). split; [|split; [|split; [|split; [|split; [|split; [|split; [|split]]]]]]].
  - apply C79_usual.
    + intros x C. unfold dashes in C. apply in_map_iff in C as (c & E & _). destruct (mem c [46%N; 47%N; 58%N]) eqn:Em; [discriminate E|]. subst c. discriminate Em.
    + intros s i k t Hin Ht. destruct Hin as [E|[E|[E|[E|[]]]]]; try discriminate E; injection E as <-; [|destruct Ht|destruct Ht].
      destruct Ht as [E|[]]. injection E as _ <- _. intros [C|[C|[]]]; discriminate C.
  - eexists nil, _. split; [reflexivity|]. split.
    + intros s' [E|[E|[E|[]]]]; try discriminate E; injection E as <-; discriminate.
    + intros e [E|[E|[E|[]]]]; try discriminate E. injection E as <-. now left.
  - eexists _, nil. split; [reflexivity|]. split; intros ? [].
  - vm_compute. reflexivity.
  - vm_compute. reflexivity.
  - vm_compute. reflexivity.
  - cbn [says plain_lists no_none]. split; [repeat split; discriminate|]. split; [repeat split|].
    replace (lit "A book") with (strip (text_of (OList [OStr (lit " A "); OTag 0 0 0 (OStr (lit "book ")) ]))) by reflexivity. apply strip_trimmed.
  - vm_compute. reflexivity.
  - eexists _, _. split; [vm_compute; reflexivity|]. split; vm_compute; repeat split.
Qed.

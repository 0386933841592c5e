(** Property C80: a page is known to be out of date when a label that it refers to has changed *)
From Coq Require Import List Bool Arith NArith Lia Permutation Sorted.
From Verif.Base Require Import Str StrFacts Dict DictFacts Sort SortFacts Result PurePath.
From Verif.Model Require Import ListUtils Hash Decider Paths Render TagTree Labels Builders RefDeps.
From Verif.Spec Require Import Hash Decider TagTree Labels RefDeps.
From Verif.Proof Require Import Attributes TagTree Labels.
From Verif.Props Require Import TagTree Decider LabelTags AutoLabels.
Import ListNotations.

Notation numbered := Verif.Spec.RefDeps.numbered.
Lemma get_registered e m i : fst (get_label e (e_sep e) i (register e m)) = fst (get_label e (e_sep e) i m).
Proof.
  unfold get_label. assert (E : register e (register e m) = register e m); [|now rewrite E].
  unfold register. destruct (m_registered m) eqn:Er; [now rewrite Er|reflexivity].
Qed.
Lemma get_each_ok e m : forall ids ls, get_each e m ids = Ok ls -> Forall2 (fun i l => fst (get_label e (e_sep e) i m) = Ok l) ids ls.
Proof.
  induction ids as [|i r IH]; intros ls E; cbn [get_each] in E.
  - injection E as <-. constructor.
  - destruct (fst (get_label e (e_sep e) i m)) as [l|] eqn:El; [|discriminate]. cbn [bind] in E.
    destruct (get_each e m r) as [ls'|] eqn:Er; [|discriminate]. cbn [bind] in E. injection E as <-. constructor; auto.
Qed.
Lemma get_each_total e m : forall ids, (forall i, In i ids -> exists l, fst (get_label e (e_sep e) i m) = Ok l) -> exists ls, get_each e m ids = Ok ls.
Proof.
  induction ids as [|i r IH]; intros H; [exists nil; reflexivity|]. cbn [get_each].
  destruct (H i (or_introl eq_refl)) as [l ->]. destruct (IH (fun j Hj => H j (or_intror Hj))) as [ls ->]. eexists. reflexivity.
Qed.
Lemma get_each_raise e m x : forall ids, get_each e m ids = Raise x -> exists i, In i ids /\ fst (get_label e (e_sep e) i m) = Raise x.
Proof.
  induction ids as [|i r IH]; intros E; cbn [get_each] in E; [discriminate|].
  destruct (fst (get_label e (e_sep e) i m)) as [l|y] eqn:El; cbn [bind] in E.
  - destruct (get_each e m r) as [ls'|y] eqn:Er; cbn [bind] in E; [discriminate|]. injection E as ->.
    destruct (IH eq_refl) as (j & Hj & Ej). exists j. split; [now right|exact Ej].
  - injection E as ->. exists i. split; [now left|exact El].
Qed.
Lemma get_label_raise e m i x : fst (get_label e (e_sep e) i m) = Raise x -> x = LabelNotFound.
Proof.
  unfold get_label. destruct (parse_id (e_sep e) i) as [[d|] l]; cbn [fst].
  - destruct (lookup _ _); congruence.
  - destruct (find _ _) as [[k y]|]; congruence.
Qed.

Lemma label_leb_before a b : label_leb a b = true <-> before a b.
Proof.
  unfold label_leb, before. destruct (eqb (l_doc a) (l_doc b)) eqn:E.
  - apply eqb_eq in E. intuition.
  - apply eqb_neq in E. intuition.
Qed.
Lemma label_leb_total a b : label_leb a b = true \/ label_leb b a = true.
Proof.
  unfold label_leb. rewrite (eqb_sym (l_doc b)). destruct (eqb (l_doc a) (l_doc b)); apply str_leb_total.
Qed.
Lemma label_leb_trans a b c : label_leb a b = true -> label_leb b c = true -> label_leb a c = true.
Proof.
  rewrite !label_leb_before. unfold before. intros [[E1 H1]|[E1 H1]] [[E2 H2]|[E2 H2]].
  - left. split; [congruence|eapply str_leb_trans; eauto].
  - right. rewrite E1. auto.
  - right. rewrite <- E2. auto.
  - right. split; [|eapply str_leb_trans; eauto]. intros E. apply E1. rewrite <- E in H2. now apply str_leb_antisym.
Qed.

Lemma Forall2_right {A B} (R : A -> B -> Prop) : forall l l' b, Forall2 R l l' -> In b l' -> exists a, In a l /\ R a b.
Proof. intros l l' b F. induction F; intros []; subst; [eexists; split; [now left|eauto]|]. destruct (IHF H0) as (a & ? & ?). exists a. split; [now right|auto]. Qed.
Lemma Forall2_left {A B} (R : A -> B -> Prop) : forall l l' a, Forall2 R l l' -> In a l -> exists b, In b l' /\ R a b.
Proof. intros l l' b F. induction F; intros []; subst; [eexists; split; [now left|eauto]|]. destruct (IHF H0) as (a & ? & ?). exists a. split; [now right|auto]. Qed.
Lemma stands_In e h i l : stands_for e (run h) i l -> lookup (key_of l) (m_labels (register e (run h))) = Some l.
Proof.
  unfold stands_for, get_label. destruct (Inv_register e _ (Inv_run h)) as (W & K & _).
  assert (X : forall k y, In (k, y) (m_labels (register e (run h))) -> lookup (key_of y) (m_labels (register e (run h))) = Some y).
  { intros k y H. pose proof H as H'. apply In_lookup in H; [|exact W]. replace (key_of y) with k; [exact H|].
    unfold keyed in K. rewrite K in H'. unfold tie in H'. apply in_map_iff in H' as (x & [= <- <-] & _). reflexivity. }
  destruct (parse_id (e_sep e) i) as [[d|] n]; cbn [fst].
  - destruct (lookup (d, n) _) as [y|] eqn:L; [|discriminate]. intros [= ->]. apply lookup_In in L. eapply X. exact L.
  - destruct (find _ _) as [[k y]|] eqn:F; [|discriminate]. intros [= ->]. apply find_some in F as [F _]. eapply X. exact F.
Qed.
Lemma stands_unique e h i j a b : stands_for e (run h) i a -> stands_for e (run h) j b -> key_of a = key_of b -> a = b.
Proof. intros Ha Hb K. apply stands_In in Ha, Hb. rewrite K in Ha. congruence. Qed.

Section Found.
Variables (is_ref : nat -> bool) (label_id : nat -> option str).
Notation refers := (refers is_ref label_id).
Notation add_ref_labels := (add_ref_labels is_ref label_id).

Lemma context_ids_In values : Forall plain_lists values -> (forall v, In v values -> is_tag v = true \/ tags_of v = nil) ->
  forall id, In id (context_ids is_ref label_id values) <-> refers values id.
Proof.
  intros P T id. unfold context_ids. rewrite uniq_In, in_flat_map. rewrite Forall_forall in P. split.
  - intros (tag & Ht & Hi). apply filter_In in Ht as [Hv Ht]. unfold ref_ids in Hi. rewrite in_flat_map in Hi.
    destruct Hi as (t & Hf & Hi). destruct tag as [| |n cls ctx c|]; try discriminate Ht.
    rewrite C23_flatten in Hf by exact (P _ Hv). destruct t as [| |n' cls' ctx' c'|]; try contradiction Hi.
    destruct (is_ref cls') eqn:Er; [|contradiction]. destruct (label_id n') as [i|] eqn:El; [|contradiction]. destruct Hi as [<-|[]].
    exists (OTag n cls ctx c), n', cls', ctx', c'. auto.
  - intros (tag & n & cls & ctx & c & Hv & Ht & Er & El). exists tag. destruct (T _ Hv) as [It|N]; [|rewrite N in Ht; contradiction].
    split; [apply filter_In; auto|]. unfold ref_ids. rewrite in_flat_map. exists (OTag n cls ctx c).
    destruct tag as [| |n' cls' ctx' c'|]; try discriminate It. rewrite C23_flatten by exact (P _ Hv). split; [exact Ht|].
    rewrite Er, El. now left.
Qed.

(** The labels that are found for a page are those that the references in its tags stand for, wherever these are in
    the tags of the page and however they are nested; they come in the order of their documents and ids. *)
Theorem C80_found : forall e m values ls, Forall plain_lists values -> (forall v, In v values -> is_tag v = true \/ tags_of v = nil) ->
  add_ref_labels e (Some m) values = Ok ls ->
  StronglySorted before ls /\
  forall l, In l ls <-> exists id, refers values id /\ stands_for e m id l.
Proof.
  intros e m values ls P T E. unfold Model.RefDeps.add_ref_labels in E. pose proof (context_ids_In values P T) as C.
  destruct (context_ids is_ref label_id values) as [|i r] eqn:Ei.
  - injection E as <-. split; [constructor|]. intros l. split; [intros []|]. intros (id & R & _). apply C in R. destruct R.
  - unfold get_labels_by_id in E. destruct (get_each e (register e m) (i :: r)) as [ls'|] eqn:G; [|discriminate]. cbn [bind] in E.
    injection E as <-. apply get_each_ok in G. split.
    + pose proof (isort_sorted label_leb label_leb_total label_leb_trans ls') as S. revert S. generalize (isort label_leb ls').
      induction 1 as [|a l S IH F]; constructor; auto. eapply Forall_impl; [|exact F]. intros b Hb. now apply label_leb_before.
    + intros l. split.
      * intros H. eapply Permutation_in in H; [|apply isort_perm]. destruct (Forall2_right _ _ _ _ G H) as (id & Hi & Hl).
        rewrite get_registered in Hl. exists id. split; [now apply C|exact Hl].
      * intros (id & R & Hl). apply C in R. destruct (Forall2_left _ _ _ _ G R) as (l' & Hl' & El). rewrite get_registered in El.
        unfold stands_for in Hl. assert (l' = l) as <- by congruence. eapply Permutation_in; [symmetry; apply isort_perm|exact Hl'].
Qed.

(** They are found unless there is no label for one of the references; then there is an error. *)
Theorem C80_missing : forall e m values, Forall plain_lists values -> (forall v, In v values -> is_tag v = true \/ tags_of v = nil) ->
  ((exists ls, add_ref_labels e (Some m) values = Ok ls) <-> forall id, refers values id -> exists l, stands_for e m id l) /\
  forall x, add_ref_labels e (Some m) values = Raise x -> x = LabelNotFound.
Proof.
  intros e m values P T. unfold Model.RefDeps.add_ref_labels. pose proof (context_ids_In values P T) as C.
  destruct (context_ids is_ref label_id values) as [|i r] eqn:Ei.
  - split; [|discriminate]. split; [|intros _; exists nil; reflexivity]. intros _ id R. apply C in R. destruct R.
  - unfold get_labels_by_id. split; [split|].
    + intros [ls E] id R. apply C in R. destruct (get_each e (register e m) (i :: r)) as [ls'|] eqn:G; [|discriminate].
      apply get_each_ok in G. destruct (Forall2_left _ _ _ _ G R) as (l & _ & El). rewrite get_registered in El. exists l. exact El.
    + intros H. destruct (get_each_total e (register e m) (i :: r)) as [ls E].
      * intros j Hj. apply C in Hj. destruct (H _ Hj) as [l Hl]. exists l. rewrite get_registered. exact Hl.
      * rewrite E. eexists. reflexivity.
    + intros x E. destruct (get_each e (register e m) (i :: r)) as [ls'|y] eqn:G; [discriminate|]. cbn [bind] in E. injection E as ->.
      destruct (get_each_raise _ _ _ _ G) as (j & _ & Ej). eapply get_label_raise. exact Ej.
Qed.
End Found.

(** ** The parameters of target builders *)
Lemma dep_eqb_refl d : dep_eqb d d = true.
Proof. destruct d as [[x|s]|l]; cbn; rewrite ?eqb_refl; auto. now destruct (l_content l). Qed.
Lemma dep_eqb_label l d : dep_eqb (DLabel l) d = true -> exists l', d = DLabel l' /\ key_of l = key_of l'.
Proof. destruct d as [|l']; cbn; [discriminate|]. intros H. apply andb_prop in H as [_ H]. apply eqb_eq in H. eauto. Qed.
Lemma uniq_deps_spec : forall l seen,
  NoDup (uniq_deps seen l) /\
  (forall d, In d (uniq_deps seen l) -> In d l /\ ~ In d seen) /\
  (forall d, In d l -> exists q, In q (seen ++ uniq_deps seen l) /\ dep_eqb d q = true).
Proof.
  induction l as [|d r IH]; intros seen; cbn [uniq_deps]; [split; [constructor|split; intros d []]|].
  destruct (existsb (dep_eqb d) seen) eqn:E.
  - destruct (IH seen) as (H1 & H2 & H3). split; [exact H1|]. split.
    + intros q Hq. destruct (H2 q Hq). split; [now right|auto].
    + intros q [<-|Hq]; auto. apply existsb_exists in E as (q & Hq & S). exists q. split; auto. apply in_or_app. auto.
  - destruct (IH (d :: seen)) as (H1 & H2 & H3). split; [|split].
    + constructor; auto. intros H. apply H2 in H as [_ H]. apply H. now left.
    + intros q [<-|Hq].
      * split; [now left|]. intros Hs. assert (existsb (dep_eqb d) seen = true); [|congruence].
        apply existsb_exists. exists d. split; [exact Hs|apply dep_eqb_refl].
      * destruct (H2 q Hq) as [A B]. split; [now right|]. intros X. apply B. now right.
    + intros q [<-|Hq].
      * exists d. split; [|apply dep_eqb_refl]. apply in_or_app. right. now left.
      * destruct (H3 q Hq) as (x & Hx & S). exists x. split; auto. apply in_app_or in Hx. destruct Hx as [[<-|Hx]|Hx]; apply in_or_app; [right; now left|now left|right; now right].
Qed.

Lemma uniq_deps_In l d : In d (uniq_deps nil l) -> In d l.
Proof. intros H. now apply (proj1 (proj2 (uniq_deps_spec l nil))). Qed.

Section Parameters.
Variables (scan : list dep -> list param) (cls : str) (src : xpath).

Lemma target_labels_In ls0 ls : forall l, In (DLabel l) (target_parameters scan cls src ls0 ls) -> In l ls0 \/ In l ls.
Proof.
  intros l H. unfold target_parameters, builder_parameters in H. apply uniq_deps_In in H.
  apply in_app_or in H as [H|H]; [|right; apply in_map_iff in H as (x & [= ->] & H); exact H]. left.
  unfold target_made in H. apply uniq_deps_In in H. apply in_app_or in H as [H|H].
  - unfold builder_parameters in H. apply uniq_deps_In in H. apply in_app_or in H as [H|H].
    + destruct H as [H|[H|[]]]; discriminate.
    + apply in_map_iff in H as (x & [= ->] & H). exact H.
  - apply in_map_iff in H as (x & X & _). discriminate.
Qed.
Lemma target_labels ls : (forall a b, In a ls -> In b ls -> key_of a = key_of b -> a = b) ->
  NoDup (target_parameters scan cls src ls ls) /\ forall l, In (DLabel l) (target_parameters scan cls src ls ls) <-> In l ls.
Proof.
  intros U. split; [apply uniq_deps_spec|]. intros l. split.
  - intros H. apply target_labels_In in H. tauto.
  - intros H. unfold target_parameters. destruct (uniq_deps_spec (target_made scan cls src ls ++ map DLabel ls) nil) as (_ & _ & H3).
    destruct (H3 (DLabel l)) as (q & Hq & S); [apply in_or_app; right; now apply in_map|]. cbn [app] in Hq.
    apply dep_eqb_label in S as (l' & -> & K). fold (builder_parameters (target_made scan cls src ls) ls) in Hq.
    assert (X : In l' ls) by (apply target_labels_In in Hq; tauto). now rewrite (U l l' H X K).
Qed.
Lemma target_source ls0 ls : exists q, In (DParam q) (target_parameters scan cls src ls0 ls) /\ param_eqb (PPath src) q = true.
Proof.
  assert (X : forall l d, (exists q, In (DParam q) l /\ param_eqb d q = true) -> exists q, In (DParam q) (uniq_deps nil l) /\ param_eqb d q = true).
  { intros l d (q & Hq & S). destruct (uniq_deps_spec l nil) as (_ & _ & H3). destruct (H3 _ Hq) as (q' & Hq' & S'). cbn [app] in Hq'.
    destruct q' as [q'|]; [|discriminate]. exists q'. split; auto. cbn in S'. destruct d, q, q'; cbn in *; try discriminate;
    apply eqb_eq in S, S'; apply eqb_eq; congruence. }
  apply X. assert (Y : forall (a b : list dep), (exists q, In (DParam q) a /\ param_eqb (PPath src) q = true) -> exists q, In (DParam q) (a ++ b) /\ param_eqb (PPath src) q = true).
  { intros a b (q & H & S). exists q. split; auto. apply in_or_app. auto. }
  apply Y, X, Y, X, Y. exists (PPath src). split; [right; now left|cbn; apply eqb_refl].
Qed.
End Parameters.

(** Every label that the page refers to is a parameter of its target builder, as it is when the builder is made, and
    no other label is; no parameter is listed twice, and the source file is one of them. *)
Theorem C80_parameters : forall is_ref label_id e h values ls scan cls src,
  Forall plain_lists values -> (forall v, In v values -> is_tag v = true \/ tags_of v = nil) ->
  add_ref_labels is_ref label_id e (Some (run h)) values = Ok ls ->
  let ps := target_parameters scan cls src ls (parameters_from_signals [ls]) in
  NoDup ps /\
  (forall l, In (DLabel l) ps <-> exists id, refers is_ref label_id values id /\ stands_for e (run h) id l) /\
  exists x, In (DParam (PPath x)) ps /\ full x = full src.
Proof.
  intros is_ref label_id e h values ls scan cls src P T E ps. destruct (C80_found _ _ _ _ _ _ P T E) as [S F].
  assert (Es : parameters_from_signals [ls] = ls).
  { unfold parameters_from_signals. cbn [concat]. rewrite app_nil_r. apply isort_sorted_id. clear - S.
    induction S as [|a l S IH Fa]; constructor; auto. eapply Forall_impl; [|exact Fa]. intros b Hb. now apply label_leb_before. }
  assert (U : forall a b, In a ls -> In b ls -> key_of a = key_of b -> a = b).
  { intros a b Ha Hb K. apply F in Ha as (i & _ & Ha). apply F in Hb as (j & _ & Hb). eapply (stands_unique e h); eauto. }
  destruct (target_labels scan cls src ls U) as [N H]. unfold ps. rewrite Es. split; [exact N|]. split.
  - intros l. rewrite H. apply F.
  - destruct (target_source scan cls src ls ls) as (q & Hq & Sq). destruct q as [x|]; [|discriminate]. exists x. split; [exact Hq|].
    cbn in Sq. apply eqb_eq in Sq. congruence.
Qed.

(** ** The texts of labels *)
Lemma split_at (c : char) : forall a a' r r', ~ In c a -> ~ In c a' -> a ++ c :: r = a' ++ c :: r' -> a = a' /\ r = r'.
Proof.
  induction a as [|x a IH]; intros [|y a'] r r' Ha Ha' E; cbn in E.
  - injection E as ->. auto.
  - injection E as -> _. exfalso. apply Ha'. now left.
  - injection E as -> _. exfalso. apply Ha. now left.
  - injection E as -> E. destruct (IH a' r r') as [-> ->]; auto; [intros H; apply Ha; now right|intros H; apply Ha'; now right].
Qed.
Lemma kind_text_cons k ks o os : kind_text (k :: ks) (o :: os) =
  k ++ lit "[" ++ str_of_nat o ++ lit "]" ++ match combine ks os with nil => nil | _ => lit ", " ++ kind_text ks os end.
Proof.
  unfold kind_text. cbn [combine map fst snd]. destruct (combine ks os) as [|x r]; cbn [map join].
  - now rewrite app_nil_r.
  - now rewrite <- !app_assoc.
Qed.
Lemma kind_text_inj : forall ks os os' r r', length os = length ks -> length os' = length ks ->
  kind_text ks os ++ r = kind_text ks os' ++ r' -> os = os' /\ r = r'.
Proof.
  induction ks as [|k ks IH]; intros [|o os] [|o' os'] r r' L L' E; try discriminate; [auto|].
  rewrite !kind_text_cons, <- !app_assoc in E. apply app_inv_head in E. apply app_inv_head in E.
  change (lit "]") with [93%N] in E. cbn [app] in E. apply split_at in E as [En E]; [|apply nat_no; right; reflexivity|apply nat_no; right; reflexivity].
  apply str_of_nat_inj in En as ->. cbn [length] in L, L'. injection L as L. injection L' as L'.
  assert (X : (exists x y, combine ks os = x :: y) /\ (exists x y, combine ks os' = x :: y) \/ combine ks os = nil /\ combine ks os' = nil /\ os = nil /\ os' = nil).
  { destruct ks, os, os'; try discriminate; cbn; [right; auto|left; eauto 10]. }
  destruct X as [[(x & y & X) (x' & y' & X')]|(X & X' & -> & ->)].
  - rewrite X, X', <- !app_assoc in E. apply app_inv_head in E. destruct (IH _ _ _ _ L L' E) as [-> ->]. auto.
  - rewrite X in E. auto.
Qed.

(** The text of a label tells its numbers, and for headings and captions its title: labels of the same kinds with
    other numbers or another title have other texts. *)
Theorem C80_texts : forall title title' l l' ks os os', numbered l ks os -> numbered l' ks os' ->
  l_doc l = l_doc l' -> l_id l = l_id l' -> l_content l = l_content l' ->
  label_text title l = label_text title' l' ->
  os = os' /\ forall t t', l_content l = true -> title l = Some t -> title' l' = Some t' -> t = t'.
Proof.
  intros title title' l l' ks os os' (K & O & L) (K' & O' & L') Ed Ei Ec E. unfold label_text in E.
  rewrite K, O, K', O', Ed, Ei, Ec in E.
  assert (X : forall r r', ((if l_content l' then lit "ContentLabel" else lit "DocumentLabel") ++
     lit "(doc_id: '" ++ l_doc l' ++ lit "', id: '" ++ l_id l' ++ lit "'" ++ lit ", kind: " ++ kind_text ks os) ++ r =
     ((if l_content l' then lit "ContentLabel" else lit "DocumentLabel") ++
     lit "(doc_id: '" ++ l_doc l' ++ lit "', id: '" ++ l_id l' ++ lit "'" ++ lit ", kind: " ++ kind_text ks os') ++ r' -> os = os' /\ r = r').
  { intros r r' H. rewrite <- !app_assoc in H. do 7 apply app_inv_head in H. now apply kind_text_inj in H. }
  destruct (l_content l') eqn:El'.
  - destruct (title l) as [t|] eqn:Et, (title' l') as [t'|] eqn:Et'; apply X in E as [-> E]; (split; [reflexivity|]); intros u u' _ Hu Hu'; try discriminate.
    injection Hu as <-. injection Hu' as <-. apply app_inv_head in E. now apply app_inv_tail in E.
  - assert (Y : os = os') by (destruct (title l), (title' l'); apply X in E; tauto). split; [exact Y|]. intros t t' H. congruence.
Qed.

(** Finding: the text of the label of a document does not have its title. *)
Theorem C80_title_refuted :
  ~ (forall title title' l t t', label_text title l = label_text title' l -> title l = Some t -> title' l = Some t' -> t = t').
Proof.
  intros H. specialize (H (fun _ => Some (lit "Old")) (fun _ => Some (lit "New"))
    (Label 0 (lit "a.dm") (lit "doc:a-dm") (Some [lit "document"]) false (Some [1]) no_links) (lit "Old") (lit "New") eq_refl eq_refl eq_refl).
  discriminate H.
Qed.

(** ** What the decider says *)
Section Decide.
Variables (digest hexdigest encode bytes_str : str -> str) (title : label -> option str).
Variables (is_ref : nat -> bool) (label_id : nat -> option str).
Notation not_needed := (not_needed digest hexdigest encode bytes_str).
Notation needed := (needed digest hexdigest encode bytes_str).
Notation registered := (registered digest hexdigest encode bytes_str).
Notation history := (history digest hexdigest encode bytes_str).
Notation calculate_hash := (calculate_hash digest hexdigest encode bytes_str).

Lemma target_inputs_label scan cls src ls0 ls l : In (DLabel l) (target_parameters scan cls src ls0 ls) -> In (IText (label_text title l)) (target_inputs title scan cls src ls0 ls).
Proof.
  intros H. unfold target_inputs, inputs_of. apply in_or_app. left. apply in_map_iff. exists (DLabel l). auto.
Qed.

(** When it is said that no build of the page is needed, then a build was finished before, and the texts of all
    labels that the page refers to were among its parameters (unless two of the texts have the same hash).  So a page
    is known to be out of date after the number of a label it refers to, or the title of a heading, has changed. *)
Theorem C80_noticed : forall e h values ls scan cls src f evs w o,
  Forall plain_lists values -> (forall v, In v values -> is_tag v = true \/ tags_of v = nil) ->
  add_ref_labels is_ref label_id e (Some (run h)) values = Ok ls ->
  let i := target_inputs title scan cls src ls (parameters_from_signals [ls]) in
  history {| files := f; db := nil |} evs = Ok w -> present w i o -> not_needed w i o ->
  exists a i' o' b w', evs = a ++ Finished i' o' :: b /\ history {| files := f; db := nil |} a = Ok w' /\
    forall k (S : str -> Prop) bs c bs' c', 0 < k -> (forall x, length (digest x) = k) ->
      Forall2 (bytes_of encode (files w)) i bs -> bytes_of encode (files w) (IPath o) c ->
      Forall2 (bytes_of encode (files w')) i' bs' -> bytes_of encode (files w') (IPath o') c' ->
      Forall S (c :: c' :: bs ++ bs') -> S (digest c) -> S (digest c') ->
      S (concat (isort str_leb (map digest bs))) -> S (concat (isort str_leb (map digest bs'))) ->
      no_collision digest S -> no_collision hexdigest S ->
      c = c' /\ forall id l, refers is_ref label_id values id -> stands_for e (run h) id l -> In (encode (label_text title l)) bs'.
Proof.
  intros e h values ls scan cls src f evs w o P T E i H Pr N.
  destruct (C80_parameters _ _ _ _ _ _ scan cls src P T E) as (_ & HL & x & Hx & _).
  assert (Hi : i <> nil).
  { intros Hi. assert (X : In (param_item (PPath x)) i); [|rewrite Hi in X; contradiction].
    unfold i, target_inputs, inputs_of. apply in_or_app. left. apply in_map_iff. exists (DParam (PPath x)). auto. }
  destruct (C28_changed _ _ _ _ _ _ _ _ _ H Hi N) as (a & i' & o' & b & w' & Eq & Ha & _ & Ec).
  exists a, i', o', b, w'. split; [exact Eq|]. split; [exact Ha|].
  intros k S bs c bs' c' Hk Hlen B C B' C' F S1 S2 S3 S4 NC NH.
  destruct (C28_same_bytes _ _ _ _ _ _ _ _ _ _ _ _ _ _ _ _ Hk Hlen Ec Pr B C B' C' F S1 S2 S3 S4 NC NH) as [Hp Hc].
  split; [exact Hc|]. intros id l R St. eapply Permutation_in; [exact Hp|].
  assert (X : In (IText (label_text title l)) i) by (apply target_inputs_label, HL; eauto).
  destruct (Forall2_left _ _ _ _ B X) as (y & Hy & By). inversion By; subst. exact Hy.
Qed.

(** Finding: whether the page is rendered does not depend on that.  The status of the target builder, which is what
    decides, is the same for all labels. *)
Theorem C80_unaffected : forall scan cls src ls0 ls ls0' ls' subs id rendered o s,
  status_of digest hexdigest encode bytes_str (target_builder title scan cls src ls0 ls subs id rendered o) s =
  status_of digest hexdigest encode bytes_str (target_builder title scan cls src ls0' ls' subs id rendered o) s.
Proof. reflexivity. Qed.
End Decide.

(** Finding: a page that has been built is not rendered again after a label in another document that it refers to has
    changed, although it is known that a build is needed. *)
Definition ex_values : list obj := [OTag 0 1 0 (OList [OStr (lit "see "); OTag 1 2 0 (OList [OTag 2 7 0 (OStr (lit "sec"))])]); OStr (lit "x")].
Definition ex_ref (cls : nat) : bool := Nat.eqb cls 7.
Definition ex_id (n : nat) : option str := if Nat.eqb n 2 then Some (lit "sec") else None.
Definition ex_env : Labels.env := Env None None None.
Definition ex_sec (id : str) : op := OAdd id (Some [lit "heading"; lit "section"]) true None (Some (lit "b.dm")).
Definition ex_old : list op := [ex_sec (lit "sec")].
Definition ex_new : list op := [ex_sec (lit "first"); ex_sec (lit "sec")].
Definition ex_title (l : label) : option str := Some (lit "T").
Definition ex_labels (h : list op) : list label :=
  match add_ref_labels ex_ref ex_id ex_env (Some (run h)) ex_values with Ok ls => ls | Raise _ => nil end.
Definition ex_src : xpath := Source (of_str (lit "/p")) (of_str (lit "a.dm")).
Definition ex_out : path := of_str (lit "/p/html/a.html").
Definition ex_page : list param := [file_param (of_str (lit "/t/template.html")); PText (lit "hash of the text")].
Definition ex_w0 : world := {| files := [(full ex_src, lit "see @b{@ref{sec}}"); (ex_out, lit "see 1"); (of_str (lit "/t/template.html"), lit "t")]; db := nil |}.
Definition ex_same (x : str) : str := x.
Definition ex_scan (l : list dep) : list param := nil.
Definition ex_inputs (h : list op) : list item := target_inputs ex_title ex_scan (lit "HtmlBuilder") ex_src (ex_labels h) (ex_labels h).
Definition after (w : world) (i : list item) : world :=
  match build_needed ex_same ex_same ex_same ex_same w i ex_out true with Ok r => snd r | Raise _ => w end.
Definition ex_w1 : world := after ex_w0 (ex_inputs ex_old).
Definition ex_w2 : world := after ex_w1 (inputs_of (map param_item ex_page) (lit "render")).
Definition still (w : world) : sys := {| wd := w; futures := nil; checked := nil; sched := nil; trace := nil |}.

Theorem C80_rendered_refuted :
  ~ (forall digest hexdigest encode bytes_str title is_ref label_id e h h' values ls ls' scan cls src rendered o w0 w1 w2 st s' id l l',
     add_ref_labels is_ref label_id e (Some (run h)) values = Ok ls ->
     add_ref_labels is_ref label_id e (Some (run h')) values = Ok ls' ->
     registered digest hexdigest encode bytes_str w0 (target_inputs title scan cls src ls ls) o w1 ->
     registered digest hexdigest encode bytes_str w1 (inputs_of (map param_item rendered) (lit "render")) o w2 ->
     refers is_ref label_id values id -> stands_for e (run h) id l -> stands_for e (run h') id l' -> label_text title l <> label_text title l' ->
     needed digest hexdigest encode bytes_str w2 (target_inputs title scan cls src ls' ls') o ->
     status_of digest hexdigest encode bytes_str (target_builder title scan cls src ls' ls' nil 0 rendered o) (still w2) = Ok (st, s') ->
     st <> Done).
Proof.
  intros H.
  assert (X : exists s', status_of ex_same ex_same ex_same ex_same (target_builder ex_title ex_scan (lit "HtmlBuilder") ex_src (ex_labels ex_new) (ex_labels ex_new) nil 0 ex_page ex_out) (still ex_w2) = Ok (Done, s'))
    by (eexists; vm_compute; reflexivity).
  destruct X as [s' X].
  assert (Y : exists l, stands_for ex_env (run ex_old) (lit "sec") l) by (eexists; vm_compute; reflexivity). destruct Y as [l Y].
  assert (Z : exists l, stands_for ex_env (run ex_new) (lit "sec") l) by (eexists; vm_compute; reflexivity). destruct Z as [l' Z].
  apply (H ex_same ex_same ex_same ex_same ex_title ex_ref ex_id ex_env ex_old ex_new ex_values (ex_labels ex_old) (ex_labels ex_new) ex_scan
    (lit "HtmlBuilder") ex_src ex_page ex_out ex_w0 ex_w1 ex_w2 Done s' (lit "sec") l l'); auto; clear H.
  all: try (vm_compute; reflexivity).
  - exists (OTag 0 1 0 (OList [OStr (lit "see "); OTag 1 2 0 (OList [OTag 2 7 0 (OStr (lit "sec"))])])), 2, 7, 0, (OStr (lit "sec")).
    split; [now left|]. split; [cbn; auto|]. split; reflexivity.
  - vm_compute in Y, Z. injection Y as <-. injection Z as <-. vm_compute. discriminate.
Qed.

(** ** Example: the page of [ex_values] has a reference in a tag in a tag; when it is built its label is a parameter, and
    the page is not needed again; the hypotheses of the theorems hold. *)
Example C80_ex :
  Forall plain_lists ex_values /\ (forall v, In v ex_values -> is_tag v = true \/ tags_of v = nil) /\
  map (label_text ex_title) (ex_labels ex_new) = [lit "ContentLabel(doc_id: 'b.dm', id: 'sec', kind: heading[2], section[2] title: 'T')"] /\
  add_ref_labels ex_ref ex_id ex_env (Some (run ex_new)) ex_values = Ok (ex_labels ex_new) /\
  add_ref_labels ex_ref ex_id ex_env (Some (run nil)) ex_values = Raise LabelNotFound /\
  history ex_same ex_same ex_same ex_same ex_w0 [Finished (ex_inputs ex_old) ex_out] = Ok ex_w1 /\
  present ex_w1 (ex_inputs ex_old) ex_out /\
  not_needed ex_same ex_same ex_same ex_same ex_w1 (ex_inputs ex_old) ex_out /\
  needed ex_same ex_same ex_same ex_same ex_w1 (ex_inputs ex_new) ex_out.
Proof.
  split; [repeat constructor; discriminate|]. split; [intros v [<-|[<-|[]]]; [now left|now right]|].
  split; [vm_compute; reflexivity|]. split; [vm_compute; reflexivity|]. split; [vm_compute; reflexivity|]. split; [vm_compute; reflexivity|].
  split; [|split; vm_compute; reflexivity]. split; [|eexists; vm_compute; reflexivity].
  intros p Hp. vm_compute in Hp. destruct Hp as [Hp|[Hp|[Hp|[Hp|[]]]]]; try discriminate. injection Hp as <-. eexists. vm_compute. reflexivity.
Qed.

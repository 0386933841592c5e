(** C78: the renderings of tables of contents, of authors and of title pages. *)
From Coq Require Import List Bool Arith NArith Lia.
From Verif.Base Require Import Str StrFacts Dict DictFacts Result PurePath.
From Verif.Model Require Import DictUtils Macros Paths Labels Ref Attributes Formats Typography TagParser Width TexFmt HtmlFmt TagTree AutoLabels LabelTags Links Toc XhtmlList Authors TocFmt.
From Verif.Spec Require Import Paths Labels Ref LabelTags Toc ListTag Authors TocFmt.
From Verif.Proof Require Import Attributes Formats.
From Verif.Props Require Import Labels Ref LabelTags ListTag Toc Links Authors.
From Verif.Props Require HtmlFmt Formats.
Import ListNotations.
Notation VStr := Verif.Model.Attributes.VStr.
Notation item := Verif.Spec.TocFmt.item.

(** ** The labels of a table *)
Lemma register_twice e m : register e (register e m) = register e m.
Proof. unfold register at 2 3. destruct (m_registered m) eqn:E; unfold register; [now rewrite E|reflexivity]. Qed.
Lemma by_kind_again e d k m r m' : get_labels_by_kind e d k m = (r, m') -> m' = register e m /\ get_labels_by_kind e d k (register e m) = (r, m').
Proof. unfold get_labels_by_kind. intros E. rewrite register_twice. split; [congruence|exact E]. Qed.
Lemma get_labels_again e ws cur m ls m' : get_labels e ws cur m = (Ok ls, m') -> get_labels e ws cur m' = (Ok ls, m').
Proof.
  unfold get_labels. set (d := if word ws (lit "all") then None else cur).
  destruct (word ws (lit "heading") || word ws (lit "headings")).
  - destruct (get_labels_by_kind e d [lit "heading"] m) as [r1 m1] eqn:E1. destruct (by_kind_again _ _ _ _ _ _ E1) as [-> F1].
    destruct r1 as [l1|]; [|discriminate].
    destruct (word ws (lit "document") || word ws (lit "documents")).
    + destruct (get_labels_by_kind e d [lit "document"] (register e m)) as [r2 m2] eqn:E2. destruct (by_kind_again _ _ _ _ _ _ E2) as [-> F2].
      rewrite register_twice in *. destruct r2 as [l2|]; [|discriminate]. intros [= <- <-]. rewrite F1, E2. reflexivity.
    + intros [= <- <-]. rewrite F1. reflexivity.
  - destruct (word ws (lit "document") || word ws (lit "documents")).
    + destruct (get_labels_by_kind e d [lit "document"] m) as [r2 m2] eqn:E2. destruct (by_kind_again _ _ _ _ _ _ E2) as [-> F2].
      destruct r2 as [l2|]; [|discriminate]. intros [= <- <-]. rewrite F2. reflexivity.
    + intros [= <- <-]. reflexivity.
Qed.
Lemma tags_levels ls tags : reference_tags 1 ls = Ok tags -> map fst tags = map l_id ls /\ levels_of ls (map snd tags).
Proof.
  intros E. destruct (C42_items ls tags E) as [A B]. split; [exact A|]. split.
  - rewrite map_length, <- (map_length fst tags), A, map_length. reflexivity.
  - intros a l r n El En. apply (B a l r n El). rewrite nth_error_map in En. destruct (nth_error tags (length a)) as [[i k]|] eqn:N; [|discriminate].
    cbn in En. injection En as ->. f_equal. f_equal. assert (X : nth_error (map fst tags) (length a) = Some i) by now rewrite nth_error_map, N.
    rewrite A, El, map_app, nth_error_app2 in X by (rewrite map_length; lia). rewrite map_length, Nat.sub_diag in X. cbn in X. congruence.
Qed.
Lemma tags_small ls : forall cur tags, cur < 6 -> reference_tags cur ls = Ok tags -> forall t, In t tags -> snd t < 6.
Proof.
  induction ls as [|l ls IH]; intros cur tags Hc E t I; cbn [reference_tags] in E; [injection E as <-; destruct I|].
  destruct (l_kind l) as [[|k0 ks]|]; try discriminate. set (k := last (k0 :: ks) []) in *. set (v := if mem k toc_levels then index_of k toc_levels else cur) in *.
  assert (Hv : v < 6).
  { unfold v. destruct (mem k toc_levels) eqn:M; [|exact Hc]. change 6 with (length toc_levels). clear - M. induction toc_levels as [|a r IHr]; [discriminate|].
    cbn [index_of length]. cbn [mem existsb] in M. destruct (eqb_spec k a); [lia|]. cbn in M. apply IHr in M. lia. }
  destruct (reference_tags v ls) as [rest|] eqn:R; [|discriminate]. cbn [bind] in E. injection E as <-. destruct I as [<-|I]; [exact Hv|]. eapply IH; eauto.
Qed.
Lemma tags_made ls : (forall l, In l ls -> exists k ks, l_kind l = Some (k :: ks)) -> forall cur, exists tags, reference_tags cur ls = Ok tags.
Proof.
  induction ls as [|l ls IH]; intros H cur; [eexists; reflexivity|]. cbn [reference_tags]. destruct (H l (or_introl eq_refl)) as (k & ks & ->).
  destruct (IH (fun x I => H x (or_intror I)) (if mem (last (k :: ks) []) toc_levels then index_of (last (k :: ks) []) toc_levels else cur)) as (r & ->).
  eexists; reflexivity.
Qed.

(** The labels that items link to have the ids of the labels of the table *)
Lemma by_id_In ls : forall acc i l, lookup i (fold_left (fun d l => set (l_id l) l d) ls acc) = Some l ->
  (In l ls /\ l_id l = i) \/ lookup i acc = Some l.
Proof.
  induction ls as [|x ls IH]; intros acc i l H; [now right|]. cbn [fold_left] in H. apply IH in H as [[I E]|H]; [left; split; [now right|exact E]|].
  destruct (eqb_spec (l_id x) i) as [<-|N].
  - rewrite lookup_set_eq in H. injection H as <-. left. split; [now left|reflexivity].
  - rewrite lookup_set_neq in H by congruence. now right.
Qed.
Lemma by_id_some ls : forall acc i, (In i (map l_id ls) \/ lookup i acc <> None) -> lookup i (fold_left (fun d l => set (l_id l) l d) ls acc) <> None.
Proof.
  induction ls as [|x ls IH]; intros acc i H; [destruct H as [[]|H]; exact H|]. cbn [fold_left]. apply IH.
  destruct (eqb_spec (l_id x) i) as [<-|N]; [right; rewrite lookup_set_eq; discriminate|]. rewrite lookup_set_neq by congruence.
  cbn [map] in H. destruct H as [[H|H]|H]; [contradiction|now left|now right].
Qed.
Lemma html_labels_ids ls : (forall l, In l ls -> strip (l_id l) = l_id l) ->
  Forall2 (fun l c => exists l', c = Some l' /\ In l' ls /\ l_id l' = l_id l) ls (html_labels ls).
Proof.
  intros Hs. unfold html_labels. set (f := fold_left (fun d l => set (l_id l) l d) ls (nil : dict str label)).
  assert (G : forall l, In l ls -> exists l', lookup (strip (l_id l)) f = Some l' /\ In l' ls /\ l_id l' = l_id l).
  { intros l I. rewrite (Hs l I). destruct (lookup (l_id l) f) as [l'|] eqn:E.
    - exists l'. split; [reflexivity|]. apply by_id_In in E as [E|E]; [exact E|discriminate].
    - exfalso. revert E. apply by_id_some. left. now apply in_map. }
  clearbody f. clear Hs.
  assert (K : forall sub, (forall l, In l sub -> In l ls) ->
    Forall2 (fun l c => exists l', c = Some l' /\ In l' ls /\ l_id l' = l_id l) sub (map (fun l => lookup (strip (l_id l)) f) sub)).
  { induction sub as [|l sub IH]; intros H; constructor; [apply G, H; now left|]. apply IH. intros x I. apply H. now right. }
  apply K. auto.
Qed.

Lemma class_chars n c : n < 6 -> In c (lit "toc-level-" ++ str_of_nat n) -> (32 <= c < 127)%N.
Proof.
  intros H I. apply in_app_or in I as [I|I].
  - vm_compute in I. repeat (destruct I as [<-|I]; [lia|]). destruct I.
  - do 6 (destruct n as [|n]; [vm_compute in I; destruct I as [<-|[]]; lia|]). lia.
Qed.

(** ** Lists *)
Section Lists.
Variables (uw : char -> bool) (pv : str -> ptype) (xml_char : char -> bool).
Notation list_node := (list_node uw pv xml_char).
Notation element_with := (element_with uw pv xml_char).

Lemma made_class name attributes cls kids r : load uw pv nil attributes = [(lit "class", VStr cls)] ->
  In name [lit "li"; lit "ol"; lit "div"] ->
  element_with name attributes kids = Ok r -> r = NElem name [(lit "class", VStr cls)] (filter not_empty kids).
Proof.
  intros L I E. unfold Model.TocFmt.element_with in E. rewrite L in E. apply HtmlFmt.element_inv in E as (n & at_ & X & ->).
  destruct I as [<-|[<-|[<-|[]]]]; vm_compute in X; injection X as <- <-; reflexivity.
Qed.
Lemma sub_made kids r : element_with (lit "ol") [] kids = Ok r -> r = NElem (lit "ol") [] (filter not_empty kids).
Proof.
  intros E. unfold Model.TocFmt.element_with in E. apply HtmlFmt.element_inv in E as (n & at_ & X & ->). vm_compute in X. injection X as <- <-. reflexivity.
Qed.
Definition an_item (n : node) : Prop := exists at_ kids, n = NElem (lit "li") at_ kids.
Lemma map_r_inv {A B} (f : A -> result B) l r : map_r f l = Ok r -> Forall2 (fun x y => f x = Ok y) l r.
Proof.
  revert r. induction l as [|x l IH]; intros r E; cbn in E; [injection E as <-; constructor|].
  destruct (f x) as [y|] eqn:Ex; [|discriminate]. cbn [bind] in E. change ((fix go (l : list A) : result (list B) := match l with [] => Ok [] | x :: r => do y <- f x ; do ys <- go r ; Ok (y :: ys) end) l) with (map_r f l) in E.
  destruct (map_r f l) as [ys|]; [|discriminate]. cbn [bind] in E. injection E as <-. constructor; [exact Ex|]. now apply IH.
Qed.
Lemma map_r_made {A B} (f : A -> result B) l : (forall x, In x l -> exists y, f x = Ok y) -> exists r, map_r f l = Ok r.
Proof.
  induction l as [|x l IH]; intros H; [eexists; reflexivity|]. destruct (H x (or_introl eq_refl)) as [y Ey]. destruct (IH (fun z I => H z (or_intror I))) as [r Er].
  exists (y :: r). cbn. rewrite Ey. cbn [bind]. change ((fix go (l : list A) : result (list B) := match l with [] => Ok [] | x :: r => do y <- f x ; do ys <- go r ; Ok (y :: ys) end) l) with (map_r f l). now rewrite Er.
Qed.
Lemma list_node_is x y d : list_node x = Ok y -> (forall p, In p (placed d x) -> an_item (snd p)) -> exists n a k, y = NElem n a k.
Proof.
  destruct x as [n|l]; cbn [Model.TocFmt.list_node]; intros E H.
  - apply Ok_inj in E. subst y. destruct (H (d, n) (or_introl eq_refl)) as (a & k & Q). cbn in Q. subst. eauto.
  - destruct (map_r list_node l) as [k|]; [|discriminate]. cbn [bind] in E. apply sub_made in E. subst. eauto.
Qed.
Lemma list_node_elem x y d : list_node x = Ok y -> (forall p, In p (placed d x) -> an_item (snd p)) -> not_empty y = true.
Proof. intros E H. destruct (list_node_is x y d E H) as (n & a & k & ->). reflexivity. Qed.
Lemma list_node_entries : forall x d y, list_node x = Ok y -> (forall p, In p (placed d x) -> an_item (snd p)) -> entries d y = placed d x.
Proof.
  fix IH 1. intros [n|l] d y E H.
  - cbn in E. injection E as <-. destruct (H (d, n) (or_introl eq_refl)) as (a & k & Q). cbn in Q. subst n. reflexivity.
  - cbn [Model.TocFmt.list_node] in E. destruct (map_r list_node l) as [k|] eqn:M; [|discriminate]. cbn [bind] in E. apply sub_made in E. subst y.
    cbn [entries]. rewrite eqb_refl. cbn [placed] in *. apply map_r_inv in M. revert k M H. induction l as [|x l IHl]; intros k M H; inversion M as [|? z ? k' Ez M']; subst; [reflexivity|].
    cbn [flat_map] in H. assert (Hx : forall p, In p (placed (S d) x) -> an_item (snd p)) by (intros p I; apply H; apply in_or_app; now left).
    cbn [filter]. rewrite (list_node_elem x z (S d) Ez Hx). cbn [flat_map]. rewrite (IH x (S d) z Ez Hx). f_equal. apply IHl; [exact M'|].
    intros p I. apply H. apply in_or_app. now right.
Qed.
Lemma list_entries l k : map_r list_node l = Ok k -> (forall p, In p (layout_of l) -> an_item (snd p)) ->
  flat_map (entries 0) (filter not_empty k) = layout_of l.
Proof.
  intros M. apply map_r_inv in M. unfold layout_of. induction M as [|x y l k E M IH]; intros H; [reflexivity|].
  cbn [flat_map] in *. assert (Hx : forall p, In p (placed 0 x) -> an_item (snd p)) by (intros p I; apply H; apply in_or_app; now left).
  cbn [filter]. rewrite (list_node_elem x y 0 E Hx). cbn [flat_map]. rewrite (list_node_entries x 0 y E Hx). f_equal. apply IH.
  intros p I. apply H. apply in_or_app. now right.
Qed.
Lemma element_made name attributes at_ kids : xhtml_tag xhtml_tag_arguments xhtml_tag_optionals name (load uw pv nil attributes) None = Ok (name, at_) ->
  forallb (value_ok xml_char) at_ = true -> Forall (fun n => text_ok xml_char n = true) kids ->
  element_with name attributes kids = Ok (NElem name at_ (filter not_empty kids)).
Proof.
  intros X V F. unfold Model.TocFmt.element_with, element. rewrite X. cbn [bind]. rewrite V.
  replace (forallb (text_ok xml_char) (filter not_empty kids)) with true; [reflexivity|].
  symmetry. apply forallb_forall. intros x I. apply filter_In in I as [I _]. rewrite Forall_forall in F. now apply F.
Qed.
Lemma list_node_made : forall x d, (forall p, In p (placed d x) -> an_item (snd p)) -> exists y, list_node x = Ok y.
Proof.
  fix IH 1. intros [n|l] d H; [eexists; reflexivity|]. cbn [placed] in H. cbn [Model.TocFmt.list_node].
  assert (M : exists k, map_r list_node l = Ok k).
  { clear -IH H. induction l as [|x l IHl]; [eexists; reflexivity|]. cbn [flat_map] in H.
    destruct (IH x (S d)) as [y Ey]; [intros p I; apply H; apply in_or_app; now left|]. destruct IHl as [k Ek]; [intros p I; apply H; apply in_or_app; now right|].
    exists (y :: k). unfold map_r. rewrite Ey. cbn [bind]. unfold map_r in Ek. now rewrite Ek. }
  destruct M as [k M]. rewrite M. cbn [bind]. eexists. apply element_made; [vm_compute; reflexivity|reflexivity|].
  apply map_r_inv in M. clear - M H. induction M as [|x y l k E M IHM]; constructor.
  - cbn [flat_map] in H. destruct (list_node_is x y (S d) E) as (n & a & q & ->); [|reflexivity]. intros p I. apply H. apply in_or_app. now left.
  - apply IHM. intros p I. apply H. cbn [flat_map]. apply in_or_app. now right.
Qed.
Lemma level_loaded n : n < 6 -> load uw pv nil (level_class n) = [(lit "class", VStr (lit "toc-level-" ++ str_of_nat n))].
Proof. intros H. do 6 (destruct n as [|n]; [vm_compute; reflexivity|]). lia. Qed.
End Lists.

(** ** Tables of contents *)
Section Tables.
Variables (lower : str -> str) (uw : char -> bool) (pv : str -> ptype) (inactive : list str).
Variables (verbatim untouched : str -> bool).
Variables (to_float : str -> option num) (times100 : num -> num) (xml_char : char -> bool) (entity_name : str -> bool)
          (name2codepoint : str -> option N) (block : TagParser.content -> bool).
Variables (other_tex : bool -> TagParser.content -> result str) (other_html : bool -> TagParser.content -> result node).
Variables (title : label -> str) (misc : lobj -> str -> option lobj) (repr : lobj -> str).
Variable rounds : nat.
Variables (fmts : dict str str) (context : dict str lobj).
Variables (cwd : list str) (e : Labels.env) (o : owner).
Notation ref_text := (ref_text uw verbatim untouched title misc repr rounds fmts context e).
Notation ref_html_of := (ref_html_of lower uw pv inactive verbatim untouched to_float times100 xml_char entity_name name2codepoint other_html title misc repr rounds fmts context cwd e o).
Notation ref_tex := (ref_tex lower uw pv inactive verbatim untouched block other_tex title misc repr rounds fmts context cwd e o).
Notation nodes := (nodes lower uw pv inactive to_float times100 xml_char entity_name name2codepoint other_html).
Notation item_html := (item_html lower uw pv inactive verbatim untouched to_float times100 xml_char entity_name name2codepoint other_html title misc repr rounds fmts context cwd e o).
Notation items_html := (items_html lower uw pv inactive verbatim untouched to_float times100 xml_char entity_name name2codepoint other_html title misc repr rounds fmts context cwd e o).
Notation toc_html := (toc_html lower uw pv inactive verbatim untouched to_float times100 xml_char entity_name name2codepoint other_html title misc repr rounds fmts context cwd e o).
Notation toc_tex := (toc_tex lower uw pv inactive verbatim untouched block other_tex title misc repr rounds fmts context cwd e o).

(** A link to the label [l] in a document for html or xhtml, with the text of a reference to it (C75) *)
Definition link_to (m : manager) (xh : bool) (l : label) (a : node) : Prop :=
  exists u t ns at_, url cwd o (method xh) (l_content l) l = Ok u /\ ref_text m (lit "html") l = Ok t /\ nodes xh t = Ok ns /\
    a = NElem (lit "a") at_ (filter not_empty ns) /\ lookup (lit "href") at_ = Some (VStr u) /\ lookup (lit "class") at_ = Some (VStr (lit "ref")).

Lemma item_parts m xh d id n l li : item_html m xh d id n (Some l) = Ok li ->
  exists a, ref_html_of m xh d l = Ok a /\ element_with uw pv xml_char (lit "li") (level_class n) [a] = Ok li.
Proof.
  unfold Model.TocFmt.item_html. destruct (ref_label e id m) as [l0|]; [|discriminate]. cbn [bind].
  destruct (ref_html_of m xh d l) as [a|]; [|discriminate]. cbn [bind]. intros E. exists a. split; [reflexivity|].
  destruct (element_with uw pv xml_char (lit "li") (level_class n) [a]) as [x|]; [|discriminate]. cbn [bind] in E.
  unfold reread in E. destruct (readable xh x); [exact E|discriminate].
Qed.
Lemma item_shape n a li : n < 6 -> element_with uw pv xml_char (lit "li") (level_class n) [a] = Ok li -> not_empty a = true -> li = item n a.
Proof.
  intros Hn Ex Na. pose proof (made_class uw pv xml_char _ _ _ _ _ (level_loaded uw pv n Hn) (or_introl eq_refl) Ex) as ->. cbn [filter]. rewrite Na. reflexivity.
Qed.
Lemma item_made m xh d id n l li : wf d -> n < 6 -> item_html m xh d id n (Some l) = Ok li ->
  exists a, li = item n a /\ link_to m xh l a.
Proof.
  intros W Hn E. destruct (item_parts m xh d id n l li E) as (a & Ea & Ex). clear E.
  pose proof (ref_of_html _ _ _ _ _ _ _ _ _ _ _ _ _ _ _ _ _ _ _ _ _ _ _ _ _ _ W Ea) as L. exists a. split; [|exact L].
  apply item_shape; [exact Hn|exact Ex|]. destruct L as (u & t & ns & at_ & _ & _ & _ & -> & _). reflexivity.
Qed.
Lemma items_made m xh d : wf d -> forall ls tags cached all items, map fst tags = map l_id ls -> (forall t, In t tags -> snd t < 6) ->
  Forall2 (fun l c => exists l', c = Some l' /\ In l' all /\ l_id l' = l_id l) ls cached ->
  items_html m xh d tags cached = Ok items ->
  map fst items = map snd tags /\
  Forall2 (fun p i => exists a l', i = item (snd p) a /\ link_to m xh l' a /\ In l' all /\ l_id l' = l_id (fst p)) (combine ls (map snd tags)) (map snd items).
Proof.
  intros W. induction ls as [|l ls IH]; intros tags cached all items Ef Hl F E; inversion F as [|? c ? cs (l' & -> & I & Ei) F']; subst; destruct tags as [|[id n] tags]; try discriminate.
  - cbn in E. injection E as <-. split; [reflexivity|constructor].
  - cbn [Model.TocFmt.items_html] in E. destruct (item_html m xh d id n (Some l')) as [li|] eqn:El; [|discriminate]. cbn [bind] in E.
    destruct (items_html m xh d tags cs) as [r|] eqn:Er; [|discriminate]. cbn [bind] in E.
    apply Ok_inj in E. subst items.
    destruct (IH tags cs all r) as [A B]; [cbn in Ef; congruence|intros t It; apply Hl; now right|exact F'|exact Er|].
    split; [cbn [map fst snd]; now rewrite A|]. cbn [map fst snd combine]. constructor; [|exact B].
    apply item_made in El as (a & -> & L); [|exact W|apply (Hl (id, n)); now left]. exists a, l'. cbn [fst snd]. auto.
Qed.

(** In html, a table is a list with an item for each of its labels, in their order: a link to a label of the table with
    the id of the label, of the class of the level of the label.  Items are in the lists of their levels (see C44). *)
Theorem C78_html : forall xh ws cur d m r, wf d -> toc_html xh ws cur d m = Ok r ->
  (forall ls m', get_labels e ws cur m = (Ok ls, m') -> forall l, In l ls -> strip (l_id l) = l_id l) ->
  exists ls m' levels kids, get_labels e ws cur m = (Ok ls, m') /\ levels_of ls levels /\
    r = NElem (lit "ol") [(lit "class", VStr (lit "toc"))] kids /\
    map fst (flat_map (entries 0) kids) = depths [] levels /\
    Forall2 (fun p i => exists a l', i = item (snd p) a /\ link_to m' xh l' a /\ In l' ls /\ l_id l' = l_id (fst p))
      (combine ls levels) (map snd (flat_map (entries 0) kids)).
Proof.
  intros xh ws cur d m r W E Hs. unfold Model.TocFmt.toc_html in E. destruct (get_labels e ws cur m) as [[ls|] m'] eqn:G; [|discriminate]. cbn [bind] in E.
  destruct (reference_tags 1 ls) as [tags|] eqn:R; [|discriminate]. cbn [bind] in E. rewrite (get_labels_again _ _ _ _ _ _ G) in E. cbn [bind] in E.
  destruct (items_html m' xh d tags (html_labels ls)) as [items|] eqn:I; [|discriminate]. cbn [bind] in E.
  destruct (map_r (list_node uw pv xml_char) (xhtml_list items)) as [k|] eqn:M; [|discriminate]. cbn [bind] in E.
  destruct (tags_levels ls tags R) as [T1 T2].
  destruct (items_made m' xh d W ls tags (html_labels ls) ls items T1 (tags_small ls 1 tags ltac:(lia) R) (html_labels_ids ls (Hs ls m' eq_refl)) I) as [A B].
  apply (made_class uw pv xml_char _ _ (lit "toc")) in E; [|vm_compute; reflexivity|right; now left].
  assert (X : flat_map (entries 0) (filter not_empty k) = layout_of (xhtml_list items)).
  { apply (list_entries uw pv xml_char _ _ M). intros p Ip. assert (Is : In (snd p) (map snd items)) by (rewrite <- (C44_order items); now apply in_map).
    clear - B Is. induction B as [|q i l1 l2 (a & l' & -> & _) B IH]; [destruct Is|]. destruct Is as [<-|Is]; [|now apply IH]. unfold item, an_item. eauto. }
  exists ls, m', (map snd tags), (filter not_empty k). split; [reflexivity|]. split; [exact T2|]. split; [exact E|].
  rewrite X. split; [rewrite C44_depth, A; reflexivity|]. rewrite C44_order. exact B.
Qed.
(** If the ids of the labels of the table are different, each item links to its own label *)
Theorem C78_own : forall xh ws cur d m r ls m', wf d -> toc_html xh ws cur d m = Ok r -> get_labels e ws cur m = (Ok ls, m') ->
  (forall l, In l ls -> strip (l_id l) = l_id l) -> NoDup (map l_id ls) ->
  exists at_ kids, r = NElem (lit "ol") at_ kids /\
    Forall2 (fun l i => exists n a, i = item n a /\ link_to m' xh l a) ls (map snd (flat_map (entries 0) kids)).
Proof.
  intros xh ws cur d m r ls m' W E G Hs Nd. destruct (C78_html xh ws cur d m r W E) as (ls1 & m1 & lv & kids & G1 & [L1 L2] & -> & _ & F).
  { intros ls1 m1 G1. rewrite G in G1. injection G1 as <- <-. exact Hs. }
  rewrite G in G1. injection G1 as <- <-. do 2 eexists. split; [reflexivity|].
  assert (Same : forall x y, In x ls -> In y ls -> l_id x = l_id y -> x = y).
  { clear - Nd. induction ls as [|z ls IH]; intros x y Ix Iy Q; [destruct Ix|]. cbn [map] in Nd. inversion Nd as [|? ? Hz Nd']; subst.
    destruct Ix as [->|Ix], Iy as [->|Iy]; auto; exfalso; apply Hz; [rewrite Q|rewrite <- Q]; now apply in_map. }
  assert (K : forall sub lv is, length lv = length sub -> (forall l, In l sub -> In l ls) ->
    Forall2 (fun p i => exists a l', i = item (snd p) a /\ link_to m' xh l' a /\ In l' ls /\ l_id l' = l_id (fst p)) (combine sub lv) is ->
    Forall2 (fun l i => exists n a, i = item n a /\ link_to m' xh l a) sub is).
  { induction sub as [|l sub IH]; intros lv' is Hl Hi F'; [inversion F'; constructor|]. destruct lv' as [|n lv']; [discriminate|]. cbn [combine] in F'.
    inversion F' as [|? i ? is' (a & l' & -> & Q & I & Ei) F'']; subst. constructor.
    - exists n, a. split; [reflexivity|]. cbn [fst] in Ei. rewrite <- (Same l' l I (Hi l (or_introl eq_refl)) Ei). exact Q.
    - apply (IH lv'); [cbn in Hl; lia|intros x Ix; apply Hi; now right|exact F'']. }
  apply (K ls lv); auto.
Qed.
(** The table is made if the references to its labels can be made and read again *)
Theorem C78_html_made : forall xh ws cur d m ls m', get_labels e ws cur m = (Ok ls, m') ->
  (forall l, In l ls -> strip (l_id l) = l_id l /\ (exists k ks, l_kind l = Some (k :: ks)) /\ (exists l', ref_label e (l_id l) m' = Ok l') /\
     exists a, ref_html_of m' xh d l = Ok a /\ readable xh a = true /\ text_ok xml_char a = true) ->
  (forall c, (32 <= c < 127)%N -> xml_char c = true) ->
  exists r, toc_html xh ws cur d m = Ok r.
Proof.
  intros xh ws cur d m ls m' G H Hx. unfold Model.TocFmt.toc_html. rewrite G. cbn [bind].
  destruct (tags_made ls (fun l I => proj1 (proj2 (H l I))) 1) as [tags R]. rewrite R. cbn [bind]. rewrite (get_labels_again _ _ _ _ _ _ G). cbn [bind].
  destruct (tags_levels ls tags R) as [T1 T2]. pose proof (tags_small ls 1 tags ltac:(lia) R) as Hs.
  assert (I : exists items, items_html m' xh d tags (html_labels ls) = Ok items /\ forall p, In p items -> an_item (snd p)).
  { pose proof (html_labels_ids ls (fun l I => proj1 (H l I))) as F. clear R T2.
    assert (K : forall sub cs, Forall2 (fun l c => exists l', c = Some l' /\ In l' ls /\ l_id l' = l_id l) sub cs -> (forall l, In l sub -> In l ls) ->
      forall tags, map fst tags = map l_id sub -> (forall t, In t tags -> snd t < 6) ->
      exists items, items_html m' xh d tags cs = Ok items /\ forall p, In p items -> an_item (snd p)).
    { intros sub cs F0. induction F0 as [|l c sub cs (l' & -> & I & Ei) F0 IH]; intros Hi tg Ef Hn; (destruct tg as [|[id n] tg]; try discriminate).
      - exists []. split; [reflexivity|intros p []].
      - cbn [map fst] in Ef. destruct (IH (fun x Ix => Hi x (or_intror Ix)) tg ltac:(congruence) (fun t It => Hn t (or_intror It))) as (items & Er & Hp).
        assert (id = l_id l) by congruence. subst id.
        destruct (H l (Hi l (or_introl eq_refl))) as (_ & _ & (l0 & El0) & _). destruct (H l' I) as (_ & _ & _ & a & Ea & Ra & Ta).
        cbn [Model.TocFmt.items_html]. unfold Model.TocFmt.item_html. rewrite El0. cbn [bind]. rewrite Ea. cbn [bind].
        assert (Hn' : n < 6) by (apply (Hn (l_id l, n)); now left).
        rewrite (element_made uw pv xml_char _ _ [(lit "class", VStr (lit "toc-level-" ++ str_of_nat n))]).
        + cbn [bind]. unfold reread.
          assert (Rd : readable xh (NElem (lit "li") [(lit "class", VStr (lit "toc-level-" ++ str_of_nat n))] (filter not_empty [a])) = true).
          { cbn [readable]. change (mem (lit "li") void_elements) with false. rewrite orb_true_r. cbn [andb]. cbn [filter]. destruct (not_empty a); [|reflexivity].
            cbn [forallb]. now rewrite Ra. }
          rewrite Rd. cbn [bind]. rewrite Er. cbn [bind]. eexists. split; [reflexivity|]. intros p [<-|Ip]; [|now apply Hp]. unfold an_item. cbn [snd]. eauto.
        + rewrite (level_loaded uw pv n Hn'). clear. vm_compute. reflexivity.
        + cbn [forallb value_ok snd]. rewrite andb_true_r. apply forallb_forall. intros c Ic. apply Hx. revert Ic. clear - Hn'.
          apply class_chars. exact Hn'.
        + constructor; [exact Ta|constructor]. }
    exact (K ls _ F (fun l I => I) tags T1 Hs). }
  destruct I as (items & -> & Hp). cbn [bind].
  destruct (map_r_made (list_node uw pv xml_char) (xhtml_list items)) as [k Ek].
  - intros x Ix. apply (list_node_made uw pv xml_char x 0). intros p Ip.
    assert (J : In (snd p) (map snd items)) by (rewrite <- (C44_order items); apply in_map; unfold layout_of; apply in_flat_map; eauto).
    apply in_map_iff in J as (q & <- & Iq). now apply Hp.
  - rewrite Ek. cbn [bind]. eexists. apply element_made; [vm_compute; reflexivity| |].
    + cbn. rewrite !Hx by lia. reflexivity.
    + apply map_r_inv in Ek. apply Forall_forall. intros y Iy.
      assert (Y : exists x, In x (xhtml_list items) /\ list_node uw pv xml_char x = Ok y).
      { clear - Ek Iy. induction Ek as [|x z l k E M IH]; [destruct Iy|]. destruct Iy as [<-|Iy]; [exists x; split; [now left|exact E]|]. destruct (IH Iy) as (w & ? & ?). exists w. split; [now right|auto]. }
      destruct Y as (x & Ix & Ey). destruct (list_node_is uw pv xml_char x y 0 Ey) as (n & a & q & ->); [|reflexivity].
      intros p Ip. assert (J : In (snd p) (map snd items)) by (rewrite <- (C44_order items); apply in_map; unfold layout_of; apply in_flat_map; eauto).
      apply in_map_iff in J as (w & <- & Iw). now apply Hp.
Qed.

(** In tex, a table is an easylist with a line for each label, with as many marks as the level of the label and a
    reference to its id (C76) *)
Theorem C78_tex : forall ws cur m x, pv (lit "booktoc") = PStr -> toc_tex ws cur m = Ok x ->
  exists ls m' levels lines, get_labels e ws cur m = (Ok ls, m') /\ levels_of ls levels /\
    Forall2 (fun p y => exists t, ref_tex m' (l_id (fst p)) = Ok t /\ y = line (snd p) t) (combine ls levels) lines /\
    x = [10%N] ++ lit "\begin{easylist}[booktoc]" ++ [10%N] ++ lit "\ListProperties(Hide=2)" ++ [10%N] ++ concat lines ++ lit "\end{easylist}" ++ [10%N].
Proof.
  intros ws cur m x Hp E. unfold Model.TocFmt.toc_tex in E. destruct (get_labels e ws cur m) as [[ls|] m'] eqn:G; [|discriminate]. cbn [bind] in E.
  destruct (reference_tags 1 ls) as [tags|] eqn:R; [|discriminate]. cbn [bind] in E.
  destruct (map_r _ tags) as [xs|] eqn:M; [|discriminate]. cbn [bind] in E. destruct (tags_levels ls tags R) as [T1 T2].
  exists ls, m', (map snd tags), xs. split; [reflexivity|]. split; [exact T2|]. split.
  - apply map_r_inv in M. clear - M T1. revert ls T1. induction M as [|[id n] y tags xs Ey M IH]; intros ls T1; [destruct ls; [constructor|discriminate]|].
    destruct ls as [|l ls]; [discriminate|]. cbn [map fst] in T1. cbn [map snd combine]. constructor; [|apply IH; congruence].
    cbn [fst snd] in *. unfold Model.TocFmt.item_tex in Ey. assert (id = l_id l) by congruence. subst id. destruct (ref_tex m' (l_id l)) as [t|]; [|discriminate]. cbn [bind] in Ey.
    exists t. split; [reflexivity|]. apply Ok_inj in Ey. now symmetry.
  - assert (L : load uw pv nil (lit "booktoc") = [(lit "booktoc", VPos PStr)]) by (rewrite <- Hp; vm_compute; reflexivity). rewrite L in E.
    unfold tex_env in E. set (ps := tex_params _ _ _ _ _) in E. assert (Ps : ps = Ok (lit "[booktoc]")) by (vm_compute; reflexivity). rewrite Ps in E. cbn [bind] in E. clear ps Ps.
    set (b := concat xs) in *.
    assert (Ends : forall c, endswith (c ++ [10%N]) [10%N] = true) by (intros c; apply endswith_iff; now exists c).
    assert (B : b = [] \/ exists c, b = c ++ [10%N]).
    { unfold b. apply map_r_inv in M. clear - M. induction M as [|p y tags xs Ey M IH]; [now left|]. right. cbn [concat].
      assert (Q : exists c, y = c ++ [10%N]).
      { unfold Model.TocFmt.item_tex in Ey. destruct (ref_tex m' (fst p)) as [t|]; [|discriminate]. cbn [bind] in Ey.
        apply Ok_inj in Ey. rewrite <- Ey. exists (repeat 167%N (snd p) ++ lit " " ++ t). now rewrite <- !app_assoc. }
      destruct Q as [c ->]. destruct IH as [->|[c' ->]]; [exists c; now rewrite app_nil_r|exists ((c ++ [10%N]) ++ c'); now rewrite app_assoc]. }
    set (h := lit "\ListProperties(Hide=2)") in *. change (startswith (h ++ [10%N] ++ b) [10%N]) with false in E. cbv iota in E.
    assert (En : endswith (10%N :: h ++ [10%N] ++ b) [10%N] = true).
    { destruct B as [->|[c ->]]; [vm_compute; reflexivity|]. replace (10%N :: h ++ [10%N] ++ c ++ [10%N]) with ((10%N :: h ++ [10%N] ++ c) ++ [10%N]); [apply Ends|]. cbn [app]. now rewrite <- !app_assoc. }
    rewrite En in E. cbv zeta in E. cbn [indented] in E. apply Ok_inj in E. cbv beta iota in E.
    rewrite <- E. clear. repeat (cbn [app]; rewrite <- ?app_assoc). reflexivity.
Qed.
(** and it is made if the references are made *)
Theorem C78_tex_made : forall ws cur m ls m', pv (lit "booktoc") = PStr -> get_labels e ws cur m = (Ok ls, m') ->
  (forall l, In l ls -> (exists k ks, l_kind l = Some (k :: ks)) /\ exists t, ref_tex m' (l_id l) = Ok t) ->
  exists x, toc_tex ws cur m = Ok x.
Proof.
  intros ws cur m ls m' Hp G H. unfold Model.TocFmt.toc_tex. rewrite G. cbn [bind].
  destruct (tags_made ls (fun l I => proj1 (H l I)) 1) as [tags R]. rewrite R. cbn [bind]. destruct (tags_levels ls tags R) as [T1 _].
  destruct (map_r_made (fun t => item_tex lower uw pv inactive verbatim untouched block other_tex title misc repr rounds fmts context cwd e o m' (fst t) (snd t)) tags) as [xs ->].
  - intros [id n] I. unfold Model.TocFmt.item_tex. cbn [fst snd]. assert (J : In id (map l_id ls)) by (rewrite <- T1; apply in_map_iff; exists (id, n); auto).
    apply in_map_iff in J as (l & <- & Il). destruct (H l Il) as (_ & t & ->). eexists; reflexivity.
  - cbn [bind]. assert (L : load uw pv nil (lit "booktoc") = [(lit "booktoc", VPos PStr)]) by (rewrite <- Hp; vm_compute; reflexivity). rewrite L.
    unfold tex_env. set (ps := tex_params _ _ _ _ _). assert (Ps : ps = Ok (lit "[booktoc]")) by (vm_compute; reflexivity). rewrite Ps. cbn [bind]. eexists; reflexivity.
Qed.
End Tables.

(** In a project in which every document has a file for the target, each item of a table leads to the file of the
    document of its label, at the anchor of the label (C63) *)
Theorem C78_leads : forall lower uw pv inactive verbatim untouched to_float times100 xml_char entity_name name2codepoint other_html title misc repr rounds fmts context,
  forall h e docs own cwd ws cur ls m' xh at_d r y (file : Ref.document -> xpath),
  plain_names cwd -> ~ In (lit "..") cwd -> NoDup (map d_id docs) -> In own docs ->
  (forall d, In d docs -> d_file d (lit "." ++ method xh) = Some (file d) /\ (exists r s, file d = Target r (method xh) s) /\ plain_names (parts (full (file d)))) ->
  d_file own (lit "." ++ method xh) = Some y -> wf at_d ->
  get_labels e ws cur (run h) = (Ok ls, m') -> (forall l, In l ls -> In (l_doc l) (map d_id docs)) ->
  (forall l, In l ls -> strip (l_id l) = l_id l) -> NoDup (map l_id ls) ->
  toc_html lower uw pv inactive verbatim untouched to_float times100 xml_char entity_name name2codepoint other_html title misc repr rounds fmts context
    cwd e {| o_id := d_id own; o_doc := own; o_docs := docs |} xh ws cur at_d (run h) = Ok r ->
  exists at_ kids, r = NElem (lit "ol") at_ kids /\
    Forall2 (fun l i => exists n at_a ks u d, i = item n (NElem (lit "a") at_a ks) /\ lookup (lit "href") at_a = Some (VStr u) /\
        In d docs /\ d_id d = l_doc l /\ leads_to cwd (full y) u (full (file d)) (if l_content l then Some (l_id l) else None))
      ls (map snd (flat_map (entries 0) kids)).
Proof.
  intros until file. intros C C2 Nd Ho Hf Ey W G Hd Hs Ni E.
  destruct (C78_own _ _ _ _ _ _ _ _ _ _ _ _ _ _ _ _ _ _ _ _ _ xh ws cur at_d (run h) r ls m' W E G Hs Ni) as (at_ & kids & -> & F).
  exists at_, kids. split; [reflexivity|]. revert Hd. clear - F C C2 Nd Ho Hf Ey. intros Hd.
  assert (Ht : startswith (method xh) (lit ".") = false) by (destruct xh; reflexivity).
  induction F as [|l i ls is (n & a & -> & (u & t & ns & at_a & Eu & _ & _ & -> & Hh & _)) F IH]; constructor; [|apply IH; intros x Ix; apply Hd; now right].
  specialize (Hd l (or_introl eq_refl)). apply in_map_iff in Hd as (d & Ed & Id). destruct (Hf d Id) as (Ex & Et & Px). destruct (Hf own Ho) as (Ex' & _ & Py).
  rewrite Ey in Ex'. injection Ex' as Ex'. rewrite <- Ex' in Py.
  destruct (url_leads cwd docs own d (method xh) (file d) y l C C2 Nd Ho Id (eq_sym Ed) Ht Ex Ey Et Px Py) as (u' & Eu' & L).
  rewrite Eu in Eu'. injection Eu' as <-. exists n, at_a, (filter not_empty ns), u, d. auto 10.
Qed.

(** ** Authors and title pages *)
(** The names of authors are shown as they are read (C52) *)
Theorem C78_authors : forall uw pv xml_char (context : Authors.ctx) names sep,
  2 <= length names -> Forall a_name names -> In sep [lit ","; lit ", "; lit ";"; lit "; "; [10%N]] ->
  (forall s, reads_as names s -> Forall (fun c => xml_char c = true) (s ++ lit "authors")) ->
  exists s, reads_as names s /\
    authors_html uw pv xml_char (authors_content context (Authors.VStr (join sep names))) =
      Ok (NElem (lit "span") [(lit "class", VStr (lit "authors"))] [NText s]) /\
    authors_tex (authors_content context (Authors.VStr (join sep names))) = Ok (IStr s).
Proof.
  intros uw pv xc ctx names sep Hl Hn Hs Hx. destruct (C52_written ctx names sep Hl Hn Hs) as (s & E & R). exists s. split; [exact R|].
  specialize (Hx s R). apply Forall_app in Hx as [X1 X2]. unfold authors_html, authors_tex. rewrite E. cbn [bind]. split; [|reflexivity].
  assert (Ns : s <> []) by (destruct R; cbn in Hl; try lia; intros Q; apply app_eq_nil in Q as [_ Q]; discriminate Q).
  rewrite (element_made uw pv xc _ _ [(lit "class", VStr (lit "authors"))]).
  - destruct s; [contradiction|reflexivity].
  - vm_compute. reflexivity.
  - cbn [forallb value_ok snd]. rewrite andb_true_r. now apply forallb_forall, Forall_forall.
  - constructor; [|constructor]. cbn [text_ok]. now apply forallb_forall, Forall_forall.
Qed.
(** A title page shows the title and then the authors of the context *)
Theorem C78_titlepage : forall uw pv xml_char (context : Authors.ctx) names sep at_ kids n,
  2 <= length names -> Forall a_name names -> In sep [lit ","; lit ", "; lit ";"; lit "; "; [10%N]] ->
  (forall s, reads_as names s -> Forall (fun c => xml_char c = true) (s ++ lit "authors")) -> Forall (fun c => xml_char c = true) (lit "title-page") ->
  ctx_author context = Some (Authors.VStr (join sep names)) \/ ctx_author context = None /\ ctx_authors context = Some (Authors.VStr (join sep names)) ->
  exists s, reads_as names s /\
    titlepage_html uw pv xml_char context (Ok (NElem n at_ kids)) =
      Ok (NElem (lit "div") [(lit "class", VStr (lit "title-page"))]
            [NElem n at_ kids; NElem (lit "span") [(lit "class", VStr (lit "authors"))] [NText s]]).
Proof.
  intros uw pv xc ctx names sep at_ kids n Hl Hn Hs Hx Ht Hc. destruct (C78_authors uw pv xc ctx names sep Hl Hn Hs Hx) as (s & R & E & _). exists s. split; [exact R|].
  unfold titlepage_html. cbn [bind].
  assert (C : authors_content ctx (Authors.VStr []) = authors_content ctx (Authors.VStr (join sep names))).
  { rewrite (C52_from_context ctx (Authors.VStr []) (Authors.VStr (join sep names))); [|right; exists []; split; [reflexivity|intros c []]|exact Hc].
    unfold authors_content. destruct (eqb (strip (join sep names)) []); [|reflexivity]. destruct Hc as [->|[-> ->]]; reflexivity. }
  rewrite C, E. cbn [bind]. rewrite (element_made uw pv xc _ _ [(lit "class", VStr (lit "title-page"))]); [reflexivity|vm_compute; reflexivity| |repeat constructor].
  cbn [forallb value_ok snd]. rewrite andb_true_r. now apply forallb_forall, Forall_forall.
Qed.

(** ** Examples and findings *)
Definition toc_history : list op :=
  let add := fun i k => OAdd i (Some [lit "heading"; k]) true None (Some (lit "a.dm")) in
  [add (lit "t") (lit "title"); add (lit "c1") (lit "chapter"); add (lit "s1") (lit "section"); add (lit "c2") (lit "chapter")].
Definition toc_env : Labels.env := Labels.Env None None (Some [lit "a.dm"]).
Definition toc_words : list str := [lit "all"; lit "headings"].
Definition ex_toc_html (title : label -> str) (xh : bool) : result node :=
  toc_html (fun x => x) (fun _ => false) LabelTags.ex_pv nil (fun _ => false) (fun _ => false) (fun _ => None) (fun x => x) (fun _ => true) (fun _ => true)
    (fun _ => None) (fun _ _ => Raise OtherError) title (fun _ _ => None) (fun _ => nil) 2 default_fmts nil [] toc_env ex_owner xh toc_words (Some (lit "a.dm")) nil (run toc_history).
Definition ex_ref_html (title : label -> str) (xh : bool) (l : label) : result node :=
  ref_html_of (fun x => x) (fun _ => false) LabelTags.ex_pv nil (fun _ => false) (fun _ => false) (fun _ => None) (fun x => x) (fun _ => true) (fun _ => true)
    (fun _ => None) (fun _ _ => Raise OtherError) title (fun _ _ => None) (fun _ => nil) 2 default_fmts nil [] toc_env ex_owner (register toc_env (run toc_history)) xh nil l.
Definition ex_toc_tex (title : label -> str) : result str :=
  toc_tex (fun x => x) (fun _ => false) LabelTags.ex_pv nil (fun _ => false) (fun _ => false) (fun _ => false) (fun _ _ => Ok nil) title
    (fun _ _ => None) (fun _ => nil) 2 default_fmts nil [] toc_env ex_owner toc_words (Some (lit "a.dm")) (run toc_history).
Definition short_title (l : label) : str := lit "About " ++ l_id l.
Example C78_ex :
  let a := fun i t => NElem (lit "a") [(lit "href", VStr (lit "#" ++ i)); (lit "class", VStr (lit "ref"))] t in
  ex_toc_html short_title false = Ok (NElem (lit "ol") [(lit "class", VStr (lit "toc"))]
    [item 0 (a (lit "t") [NText (lit "About t")]);
     NElem (lit "ol") [] [item 2 (a (lit "c1") [NText (lit "Chapter 1. About c1")]);
                          NElem (lit "ol") [] [item 3 (a (lit "s1") [NText (lit "About s1")])];
                          item 2 (a (lit "c2") [NText (lit "Chapter 2. About c2")])]]) /\
  ex_toc_tex short_title = Ok ([10%N] ++ lit "\begin{easylist}[booktoc]" ++ [10%N] ++ lit "\ListProperties(Hide=2)" ++ [10%N] ++
    line 0 (lit "\href{#t}{About t}") ++ line 2 (lit "\href{#c1}{Chapter 1. About c1}") ++ line 3 (lit "\href{#s1}{About s1}") ++
    line 2 (lit "\href{#c2}{Chapter 2. About c2}") ++ lit "\end{easylist}" ++ [10%N]).
Proof. split; vm_compute; reflexivity. Qed.

(** Finding: the line of a title has no mark, so that it is not an item of the list in tex *)
Theorem C78_marks_refuted : ~ (forall title x ls m', get_labels toc_env toc_words (Some (lit "a.dm")) (run toc_history) = (Ok ls, m') ->
  ex_toc_tex title = Ok x -> forall l t, In l ls ->
  ref_tex (fun x => x) (fun _ => false) LabelTags.ex_pv nil (fun _ => false) (fun _ => false) (fun _ => false) (fun _ _ => Ok nil) title
    (fun _ _ => None) (fun _ => nil) 2 default_fmts nil [] toc_env ex_owner m' (l_id l) = Ok t -> contains x (167%N :: lit " " ++ t) = true).
Proof.
  intros H. destruct (get_labels toc_env toc_words (Some (lit "a.dm")) (run toc_history)) as [[ls|] m'] eqn:G; [|vm_compute in G; discriminate G].
  destruct (ex_toc_tex short_title) as [x|] eqn:E; [|vm_compute in E; discriminate E].
  specialize (H short_title x ls m' eq_refl E). vm_compute in G. injection G as <- <-.
  specialize (H _ (lit "\href{#t}{About t}") (or_introl eq_refl)). vm_compute in E. injection E as <-.
  assert (C : false = true); [|discriminate C]. rewrite <- H; vm_compute; reflexivity.
Qed.
(** Finding: with a symbol in the title of a heading, the table of contents in html is not made, although the references
    to all headings are *)
Theorem C78_symbol_refuted : ~ (forall title xh ls m', get_labels toc_env toc_words (Some (lit "a.dm")) (run toc_history) = (Ok ls, m') ->
  (forall l, In l ls -> exists a, ex_ref_html title xh l = Ok a) -> exists r, ex_toc_html title xh = Ok r).
Proof.
  intros H. pose (ti := fun _ : label => lit "The @symbol{alpha} particle").
  destruct (get_labels toc_env toc_words (Some (lit "a.dm")) (run toc_history)) as [[ls|] m'] eqn:G; [|vm_compute in G; discriminate G].
  destruct (H ti false ls m' eq_refl) as [r E]; [|vm_compute in E; discriminate E].
  intros l I. vm_compute in G. injection G as <- <-. repeat (destruct I as [<-|I]; [eexists; vm_compute; reflexivity|]). destruct I.
Qed.

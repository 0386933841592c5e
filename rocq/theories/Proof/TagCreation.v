(** Lemmas about the creation of tags. *)
From Coq Require Import List Bool Arith NArith Lia.
From Verif.Base Require Import Str StrFacts ListFacts PyText PyTextFacts Result.
From Verif.Model Require Import Attributes Typography Paragraphs TagParser TagCreation.
From Verif.Spec Require Import Typography Paragraphs TagParser TagCreation.
From Verif.Proof Require Import Attributes Typography Paragraphs TagParser.
From Verif.Props Require Typography TagParser.
Import ListNotations.
Notation content := TagParser.content.
Notation gap := Verif.Model.Typography.gap.

(** ** Pieces of texts whose typography is set *)
Section Stable.
Context (uw : char -> bool) (Huw : marks_are_no_words uw).
Lemma cls_space c : rx_space c = true -> cls uw (Some c) = (false, false).
Proof.
  intros H. unfold cls, word, visible. rewrite H. destruct (is_word uw c) eqn:E; [|reflexivity].
  apply is_word_not_space in E. apply rx_space_space in H. congruence.
Qed.
Lemma neigh_len F : forall x p, length (neigh uw F p x) = length x.
Proof. induction x as [|c x IH]; intros p; [reflexivity|]. cbn [neigh length]. rewrite IH. reflexivity. Qed.
Lemma neigh_front F : forall x p u, (u = [] \/ exists c r, u = c :: r /\ rx_space c = true) ->
  exists v q, neigh uw F p (x ++ u) = neigh uw F p x ++ v /\ v = neigh uw F q u.
Proof.
  induction x as [|c x IH]; intros p u Hu.
  - exists (neigh uw F p u), p. split; reflexivity.
  - cbn [app neigh]. destruct (IH (cls uw (Some c)) u Hu) as (v & q & E & Ev). exists v, q. split; [|exact Ev]. rewrite E. cbn [app]. f_equal.
    destruct x as [|d x]; [|reflexivity]. cbn [app hd_error]. destruct Hu as [->|(d & r & -> & Hd)]; [reflexivity|].
    cbn [hd_error]. rewrite (cls_space d Hd). reflexivity.
Qed.
Lemma neigh_back F : forall u p x, u <> [] -> spaces u ->
  exists v, neigh uw F p (u ++ x) = v ++ neigh uw F (false, false) x /\ length v = length u.
Proof.
  induction u as [|c u IH]; intros p x Hn Hu; [congruence|]. inversion Hu as [|? ? Hc Hu']; subst. cbn [app neigh].
  destruct u as [|d u].
  - cbn [app]. rewrite (cls_space c Hc). eexists [_]. split; reflexivity.
  - destruct (IH (cls uw (Some c)) x ltac:(discriminate) Hu') as (v & E & El). rewrite E. eexists (_ :: v). split; [reflexivity|].
    cbn [length]. rewrite El. reflexivity.
Qed.
Lemma has_break_nonempty u : has_break u -> u <> [].
Proof. intros (a & b & d & -> & _). destruct a; discriminate. Qed.
Lemma app_inv_len {A} (a b c d : list A) : length a = length c -> a ++ b = c ++ d -> a = c /\ b = d.
Proof.
  revert c. induction a as [|x a IH]; intros [|y c] H E; try discriminate H; [split; [reflexivity|exact E]|].
  cbn [app] in E. injection E as -> E. injection H as H. destruct (IH c H E) as [-> ->]. split; reflexivity.
Qed.
Lemma quotes_pieces x ps : psplit x ps -> neigh uw Fq (false, false) x = x -> Forall (fun p => neigh uw Fq (false, false) p = p) ps.
Proof.
  induction 1 as [p H|p u x ps H1 H2 H3 H4 H5 _ IH]; intros E; [constructor; [exact E|constructor]|].
  pose proof (has_break_nonempty u H4) as Hu.
  destruct (neigh_front Fq p (false, false) (u ++ x)) as (v & q & E1 & Ev).
  { right. destruct u as [|c u]; [congruence|]. inversion H3; subst. exists c, (u ++ x). split; [reflexivity|assumption]. }
  rewrite E1 in E. apply app_inv_len in E as [Ep Ev']; [|apply neigh_len].
  constructor; [exact Ep|]. rewrite Ev in Ev'. destruct (neigh_back Fq u q x Hu H3) as (w & E2 & El). rewrite E2 in Ev'.
  apply app_inv_len in Ev' as [_ Ex]; [|exact El]. apply IH, Ex.
Qed.
Lemma set_dash_infix h u a y b : set_dash h u (a ++ y ++ b) -> set_dash h u y.
Proof.
  intros (H1 & H2 & H3). split; [|split].
  - destruct (contains y h) eqn:E; [|reflexivity]. apply contains_iff in E as (p & q & ->).
    assert (contains (a ++ (p ++ h ++ q) ++ b) h = true); [|congruence]. apply contains_iff. exists (a ++ p), (q ++ b). rewrite !app_assoc. reflexivity.
  - intros p c q ->. apply (H2 (a ++ p) c (q ++ b)). rewrite <- !app_assoc. reflexivity.
  - intros p c q ->. apply (H3 (a ++ p) c (q ++ b)). rewrite <- !app_assoc. reflexivity.
Qed.
Lemma psplit_infix x ps : psplit x ps -> forall p, In p ps -> exists a b, x = a ++ p ++ b.
Proof.
  induction 1 as [p H|p u x ps H1 H2 H3 H4 H5 _ IH]; intros q Hq.
  - destruct Hq as [<-|[]]. exists [], []. rewrite app_nil_r. reflexivity.
  - destruct Hq as [<-|Hq]; [exists [], (u ++ x); reflexivity|]. destruct (IH q Hq) as (a & b & ->).
    exists (p ++ u ++ a), b. rewrite <- !app_assoc. reflexivity.
Qed.
Definition set_text (s : str) : Prop := typography uw s = s.
Lemma set_text_pieces x : set_text x -> Forall set_text (split_para 0 x).
Proof.
  intros Hx. pose proof (split_para_psplit x) as Hp.
  assert (Hd : set_dashes x). { unfold set_text, typography in Hx. rewrite <- Hx. apply quotes_set; [exact Huw|]. apply dashes_set. }
  assert (Hq : neigh uw Fq (false, false) x = x).
  { unfold set_text, typography in Hx. rewrite (dashes_same x Hd) in Hx. rewrite <- (quotes_eq uw Huw). exact Hx. }
  pose proof (quotes_pieces _ _ Hp Hq) as Hf. rewrite Forall_forall in *. intros p Hin. specialize (Hf p Hin).
  destruct (psplit_infix _ _ Hp p Hin) as (a & b & E). unfold set_text, typography.
  rewrite dashes_same; [rewrite (quotes_eq uw Huw); exact Hf|]. rewrite E in Hd. destruct Hd as [D1 D2].
  split; eapply set_dash_infix; eassumption.
Qed.

(** *** Typography makes no tags *)
Lemma has_tag_app_r a b : has_tag b -> has_tag (a ++ b).
Proof. intros (p & c & q & -> & Hc). exists (a ++ p), c, q. rewrite <- app_assoc. split; [reflexivity|exact Hc]. Qed.
Lemma has_tag_infix a b d : has_tag b -> has_tag (a ++ b ++ d).
Proof. intros (p & c & q & -> & Hc). exists (a ++ p), c, (q ++ d). rewrite <- !app_assoc. split; [reflexivity|exact Hc]. Qed.
Lemma dash_at_suffix h u x r : dash_at h u x = Some r -> exists p, x = p ++ r.
Proof.
  unfold dash_at. destruct (lstrip_p_decomp gap x) as (p & E & _). intros H.
  assert (G : forall z, exists q, z = q ++ lstrip_p gap z) by (intros z; destruct (lstrip_p_decomp gap z) as (q & Eq & _); exists q; exact Eq).
  destruct (eat h (lstrip_p gap x)) as [z|] eqn:Ee.
  - apply eat_iff in Ee. apply (f_equal (fun o => match o with Some y => y | None => [] end)) in H. cbn in H. subst r.
    destruct (G z) as [q Eq]. exists (p ++ h ++ q). rewrite E at 1. rewrite Ee. rewrite Eq at 1. rewrite <- !app_assoc. reflexivity.
  - destruct (lstrip_p gap x) as [|c z] eqn:El; [discriminate H|]. destruct (N.eqb c u); [|discriminate H].
    apply (f_equal (fun o => match o with Some y => y | None => [] end)) in H. cbn in H. subst r.
    destruct (G z) as [q Eq]. exists (p ++ c :: q). rewrite E at 1. rewrite Eq at 1. rewrite <- !app_assoc. reflexivity.
Qed.
Lemma sub_from_tag h u : u <> 64%N -> alnum u = false -> forall fuel x, has_tag (sub_from h u fuel x) -> has_tag x.
Proof.
  intros H64 Hal. induction fuel as [|fuel IH]; intros x H; [destruct (has_tag_nil H)|]. cbn [sub_from] in H.
  destruct (dash_at h u x) as [r|] eqn:E.
  - apply has_tag_cons in H as [(d & r' & Hu & _)|H]; [congruence|]. apply dash_at_suffix in E as [p ->]. apply has_tag_app_r, IH, H.
  - destruct x as [|c x]; [exact H|]. apply has_tag_cons in H as [(d & r' & -> & Es & Hd)|H].
    + apply has_tag_cons. destruct fuel as [|fuel]; [discriminate Es|]. cbn [sub_from] in Es. destruct (dash_at h u x) as [r|].
      * injection Es as Es _. congruence.
      * destruct x as [|c x]; [discriminate Es|]. injection Es as -> _. left. eauto.
    + apply has_tag_cons. right. apply IH, H.
Qed.
Lemma similar_tag x y : Forall2 similar x y -> has_tag y -> has_tag x.
Proof.
  induction 1 as [|c d x y Hc Hx IH]; intros H; [destruct (has_tag_nil H)|].
  apply has_tag_cons. apply has_tag_cons in H as [(e & r & -> & -> & He)|H]; [|right; apply IH, H]. left.
  inversion Hx as [|c' e' x' y' Hc' _]; subst. exists c', x'.
  destruct Hc as [Hc|[_ Hc]]; [|cbn in Hc; intuition discriminate]. split; [congruence|]. split; [reflexivity|].
  destruct Hc' as [->|[_ Hc']]; [exact He|]. cbn in Hc'. destruct Hc' as [<-|[<-|[<-|[<-|[]]]]]; discriminate He.
Qed.
Lemma typography_tag x : has_tag (typography uw x) -> has_tag x.
Proof.
  intros H. unfold typography in H. apply (similar_tag _ _ (quotes_similar uw Huw _)) in H.
  unfold dashes, sub_dash in H. apply sub_from_tag in H; [|discriminate|reflexivity]. apply sub_from_tag in H; [exact H|discriminate|reflexivity].
Qed.
Lemma pieces_no_tag x : ~ has_tag x -> Forall (fun p => ~ has_tag p) (split_para 0 x).
Proof.
  intros H. apply Forall_forall. intros p Hp Ht. apply H.
  destruct (psplit_infix _ _ (split_para_psplit x) p Hp) as (a & b & ->). apply has_tag_infix, Ht.
Qed.

(** *** Letters *)
Lemma letter_other c : letter c = true -> (negb (gap c) && negb (mem c [45; 8211; 8212; 39; 34; 8216; 8217; 8220; 8221]%N)) = true.
Proof.
  unfold letter, gap. rewrite !andb_true_iff, !negb_true_iff. intros [[[H1 H2] H3] H4]. rewrite H2, H3. split; [reflexivity|exact H4].
Qed.
Lemma letter_space c : is_space c = true -> letter c = false.
Proof. intros H. unfold letter. rewrite H. reflexivity. Qed.
Lemma filter_letter_spaces u : blank u -> filter letter u = [].
Proof. induction 1 as [|c u Hc _ IH]; [reflexivity|]. cbn [filter]. rewrite (letter_space c Hc). exact IH. Qed.
Lemma letters_pieces x : concat (map (filter letter) (split_para 0 x)) = filter letter x.
Proof.
  pose proof (split_para_psplit x) as H. induction H as [p H|p u x ps H1 H2 H3 H4 H5 _ IH].
  - cbn. rewrite app_nil_r. reflexivity.
  - cbn [map concat]. rewrite IH, !filter_app. rewrite (filter_letter_spaces u); [reflexivity|]. apply spaces_blank, H3.
Qed.
Lemma letters_typography x : filter letter (typography uw x) = filter letter x.
Proof.
  pose proof (Props.Typography.C51_kept uw Huw x) as K. cbv zeta in K.
  set (other := fun c : char => negb (gap c) && negb (mem c [45; 8211; 8212; 39; 34; 8216; 8217; 8220; 8221]%N)) in K.
  assert (G : forall z, filter letter (filter other z) = filter letter z).
  { induction z as [|c z IH]; [reflexivity|]. cbn [filter]. destruct (other c) eqn:E; cbn [filter]; rewrite IH; [reflexivity|].
    destruct (letter c) eqn:El; [|reflexivity]. apply letter_other in El. unfold other in E. congruence. }
  rewrite <- (G (typography uw x)), <- (G x), K. reflexivity.
Qed.
End Stable.

Section Creation.
Context (uw : char -> bool) (verbatim typo include pars : str -> bool) (mac : str -> str).
Context (Huw : marks_are_no_words uw) (Hp : usual_paragraphs verbatim typo include pars) (Hmac : forall s, mac s = s).
Notation set_typography := (set_typography uw typo).
Notation items_with := (items_with uw).
Notation parse_with := (parse_with uw).
Notation grouped_from := (grouped_from include).
Notation make := (make uw verbatim typo include pars mac).
Notation items := (items uw verbatim).
Notation parse_text := (parse_text uw verbatim).

(** ** What creation amounts to *)
Definition pure_paragraphs (c : content) : content :=
  let pars l := one_or_list (map (fun i => match i with
                                           | Items sub => Tag (lit "p") (Some []) (one_or_list sub)
                                           | _ => i
                                           end) (cleaned (grouped_from [] l))) in
  match c with
  | Tag _ _ _ => c
  | Text s => pars [Text s]
  | Items l => pars l
  end.
Definition finish_tag (n : str) (c : content) : content :=
  let c := if typo n then set_typography c else c in
  if pars n then pure_paragraphs c else c.
Fixpoint finish (c : content) : content :=
  match c with
  | Text s => Text s
  | Items l => Items (map finish l)
  | Tag n a c' => Tag n a (finish_tag n (finish c'))
  end.

(** *** Groups *)
Definition text_of_nonempty (p : str) : list content := match p with [] => [] | _ => [Text p] end.
Lemma add_texts_cons sub p ps : add_texts sub (p :: ps) =
  match ps with
  | [] => ([], sub ++ text_of_nonempty p)
  | _ => (close_sub (sub ++ text_of_nonempty p) ++ fst (add_texts [] ps), snd (add_texts [] ps))
  end.
Proof.
  cbn [add_texts]. assert (E : match p with [] => sub | _ => sub ++ [Text p] end = sub ++ text_of_nonempty p) by (destruct p; [rewrite app_nil_r|]; reflexivity).
  rewrite E. destruct ps as [|q ps]; [reflexivity|]. destruct (add_texts [] (q :: ps)). reflexivity.
Qed.
(** a property of the items of groups *)
Section Groups.
Context (P : content -> Prop).
Definition in_group (i : content) : Prop := match i with Items sub => Forall P sub | _ => P i end.
Lemma close_group_all sub : Forall P sub -> Forall in_group (close_sub sub).
Proof. intros H. destruct sub; cbn [close_sub]; constructor; [exact H|constructor]. Qed.
Lemma text_all p : P (Text p) -> Forall P (text_of_nonempty p).
Proof. intros H. destruct p; constructor; [exact H|constructor]. Qed.
Lemma add_texts_all : forall ps sub, Forall P sub -> Forall (fun p => P (Text p)) ps ->
  Forall in_group (fst (add_texts sub ps)) /\ Forall P (snd (add_texts sub ps)).
Proof.
  induction ps as [|p ps IH]; intros sub Hs Hps; [split; [constructor|exact Hs]|].
  inversion Hps as [|? ? Hp1 Hps']; subst. rewrite add_texts_cons.
  assert (H1 : Forall P (sub ++ text_of_nonempty p)) by (apply Forall_app; split; [exact Hs|apply text_all, Hp1]).
  destruct ps as [|q ps]; [split; [constructor|exact H1]|].
  destruct (IH [] (Forall_nil _) Hps') as [H2 H3]. cbn [fst snd]. split; [|exact H3].
  apply Forall_app. split; [apply close_group_all, H1|exact H2].
Qed.
Context (Ptext : forall s, P (Text s) -> Forall (fun p => P (Text p)) (split_para 0 s)).
Lemma grouped_all : forall l sub, Forall P sub -> Forall in_group l -> Forall in_group (grouped_from sub l).
Proof.
  induction l as [|i l IH]; intros sub Hs Hl; [apply close_group_all, Hs|].
  inversion Hl as [|? ? Hi Hl']; subst. destruct i as [s|n a c|i]; cbn [TagCreation.grouped_from].
  - destruct (add_texts_all (split_para 0 s) sub Hs (Ptext s Hi)) as [H1 H2].
    destruct (add_texts sub (split_para 0 s)) as [gs sub']. cbn [fst snd] in *. apply Forall_app. split; [exact H1|]. apply IH; assumption.
  - destruct (include n).
    + apply IH; [|exact Hl']. apply Forall_app. split; [exact Hs|]. constructor; [exact Hi|constructor].
    + apply Forall_app. split; [apply close_group_all, Hs|]. constructor; [exact Hi|]. apply IH; [constructor|exact Hl'].
  - apply Forall_app. split; [apply close_group_all, Hs|]. constructor; [exact Hi|]. apply IH; [constructor|exact Hl'].
Qed.
Lemma cleaned_all l : Forall in_group l -> Forall in_group (cleaned l).
Proof. intros H. unfold cleaned. rewrite Forall_forall in *. intros i Hi. apply filter_In in Hi as [Hi _]. auto. Qed.
End Groups.
Definition mark_pars (i : content) : content :=
  match i with Items sub => Tag (lit "p") (Some []) (one_or_list sub) | _ => i end.
Lemma pure_eq c : pure_paragraphs c =
  match c with Tag _ _ _ => c | _ => one_or_list (map mark_pars (cleaned (grouped_from [] (elems c)))) end.
Proof. destruct c; reflexivity. Qed.
Lemma elems_one l : Forall (fun i => forall k, i <> Items k) l -> elems (one_or_list l) = l.
Proof.
  intros H. destruct l as [|i [|j l]]; try reflexivity. inversion H as [|? ? Hi _]; subst. cbn [one_or_list].
  destruct i as [s|n a c|k]; try reflexivity. destruct (Hi k eq_refl).
Qed.
Lemma mark_pars_not_items l : Forall (fun i => forall k, i <> Items k) (map mark_pars l).
Proof. apply Forall_map, Forall_forall. intros i _ k. destruct i; discriminate. Qed.

(** *** Typography is set once and for all *)
Definition stable (c : content) : Prop := set_typography c = c.
Lemma set_typography_twice c : stable (set_typography c).
Proof.
  unfold stable. induction c as [s|n a c IH|l IH] using content_ind'; cbn [TagCreation.set_typography].
  - f_equal. apply typography_twice, Huw.
  - f_equal. destruct (typo n); [exact IH|reflexivity].
  - f_equal. rewrite map_map. apply map_ext_Forall, IH.
Qed.
Lemma stable_items l : stable (Items l) <-> Forall stable l.
Proof.
  unfold stable. cbn [TagCreation.set_typography]. split.
  - intros H. apply (f_equal elems) in H. cbn [elems] in H. induction l as [|i l IH]; [constructor|].
    cbn [map] in H. injection H as H1 H2. constructor; [exact H1|apply IH, H2].
  - intros H. f_equal. induction H as [|i l Hi _ IH]; [reflexivity|]. cbn [map]. rewrite Hi, IH. reflexivity.
Qed.
Lemma stable_elems c : stable c -> Forall (in_group stable) (elems c).
Proof.
  assert (G : forall i, stable i -> in_group stable i) by (intros [s|n a d|l] H; cbn [in_group]; try exact H; apply stable_items, H).
  intros H. destruct c as [s|n a d|l]; cbn [elems].
  - constructor; [apply G, H|constructor].
  - constructor; [apply G, H|constructor].
  - apply stable_items in H. eapply Forall_impl; [|exact H]. exact G.
Qed.
Lemma stable_text s : stable (Text s) -> Forall (fun p => stable (Text p)) (split_para 0 s).
Proof.
  intros H. assert (Hs : set_text uw s). { unfold stable in H. cbn in H. apply (f_equal (fun c => match c with Text t => t | _ => [] end)) in H. exact H. }
  pose proof (set_text_pieces uw Huw s Hs) as F. eapply Forall_impl; [|exact F]. intros p Ep. unfold stable. cbn. f_equal. exact Ep.
Qed.
Lemma stable_one l : Forall stable l -> stable (one_or_list l).
Proof. intros H. destruct l as [|i [|j l]]; [reflexivity|inversion H; assumption|apply stable_items, H]. Qed.
Lemma stable_groups c : stable c -> Forall (in_group stable) (cleaned (grouped_from [] (elems c))).
Proof.
  intros H. apply cleaned_all, grouped_all; [exact stable_text|constructor|apply stable_elems, H].
Qed.
Lemma stable_paragraphs c : stable c -> stable (pure_paragraphs c).
Proof.
  intros H. rewrite pure_eq. destruct Hp as (Hv & Ht & _).
  assert (G : stable (one_or_list (map mark_pars (cleaned (grouped_from [] (elems c)))))).
  { apply stable_one, Forall_map. eapply Forall_impl; [|apply stable_groups, H].
    intros [s|n a d|sub] Hi; cbn [mark_pars in_group] in *; try exact Hi.
    unfold stable. cbn [TagCreation.set_typography]. rewrite Ht. f_equal. apply stable_one, Hi. }
  destruct c; [exact G|exact H|exact G].
Qed.
Lemma finish_tag_stable n c : typo n = true -> stable (finish_tag n c).
Proof.
  intros Ht. unfold finish_tag. rewrite Ht. destruct (pars n); [apply stable_paragraphs|]; apply set_typography_twice.
Qed.

(** *** No tag is left in a text *)
Notation done := (recognised (fun _ => false)).
Lemma done_tag n a c : done (Tag n a c) <-> done c.
Proof. split; [intros H; inversion H; subst; [assumption|discriminate]|intros H; constructor; [reflexivity|exact H]]. Qed.
Lemma done_items l : done (Items l) <-> Forall done l.
Proof. split; [intros H; inversion H; subst; assumption|intros H; constructor; exact H]. Qed.
Lemma done_text s : done (Text s) <-> ~ has_tag s.
Proof. split; [intros H; inversion H; subst; assumption|intros H; constructor; exact H]. Qed.
Lemma done_typography c : done c -> done (set_typography c).
Proof.
  induction c as [s|n a c IH|l IH] using content_ind'; cbn [TagCreation.set_typography].
  - rewrite !done_text. intros H Ht. apply H. eapply typography_tag; eassumption.
  - rewrite !done_tag. intros H. destruct (typo n); auto.
  - rewrite !done_items. intros H. apply Forall_map. rewrite Forall_forall in *. intros i Hi. apply IH; auto.
Qed.
Lemma done_elems c : done c -> Forall (in_group done) (elems c).
Proof.
  assert (G : forall i, done i -> in_group done i) by (intros [s|n a d|l] H; cbn [in_group]; try exact H; apply done_items, H).
  intros H. destruct c as [s|n a d|l]; cbn [elems].
  - constructor; [apply G, H|constructor].
  - constructor; [apply G, H|constructor].
  - apply done_items in H. eapply Forall_impl; [|exact H]. exact G.
Qed.
Lemma done_groups c : done c -> Forall (in_group done) (cleaned (grouped_from [] (elems c))).
Proof.
  intros H. apply cleaned_all, grouped_all; [|constructor|apply done_elems, H]. intros s Hs. apply done_text in Hs.
  pose proof (pieces_no_tag s Hs) as F. eapply Forall_impl; [|exact F]. intros q Hq. apply done_text, Hq.
Qed.
Lemma done_one l : Forall done l -> done (one_or_list l).
Proof. intros H. destruct l as [|i [|j l]]; [constructor; constructor|inversion H; assumption|apply done_items, H]. Qed.
Lemma done_paragraphs c : done c -> done (pure_paragraphs c).
Proof.
  intros H. rewrite pure_eq.
  assert (G : done (one_or_list (map mark_pars (cleaned (grouped_from [] (elems c)))))).
  { apply done_one, Forall_map. eapply Forall_impl; [|apply done_groups, H].
    intros [s|n a d|sub] Hi; cbn [mark_pars in_group] in *; try exact Hi. apply done_tag, done_one, Hi. }
  destruct c; [exact G|exact H|exact G].
Qed.
Lemma done_finish_tag n c : done c -> done (finish_tag n c).
Proof.
  intros H. unfold finish_tag.
  assert (H1 : done (if typo n then set_typography c else c)) by (destruct (typo n); [apply done_typography|]; exact H).
  destruct (pars n); [apply done_paragraphs|]; exact H1.
Qed.
Lemma done_finish c : done c -> done (finish c).
Proof.
  induction c as [s|n a c IH|l IH] using content_ind'; cbn [finish]; [auto| |].
  - rewrite !done_tag. intros H. apply done_finish_tag, IH, H.
  - rewrite !done_items. intros H. apply Forall_map. rewrite Forall_forall in *. intros i Hi. apply IH; auto.
Qed.

(** *** Depth *)
Fixpoint nested (c : content) : nat :=
  match c with Text _ => 0 | Tag _ _ c' => S (nested c') | Items l => list_max (map nested l) end.
Fixpoint flat_lists (c : content) : Prop :=
  match c with
  | Text _ => True
  | Tag _ _ c' => flat_lists c'
  | Items l => (fix go (l : list content) := match l with
                                             | [] => True
                                             | i :: r => (forall k, i <> Items k) /\ flat_lists i /\ go r
                                             end) l
  end.
Lemma flat_items l : flat_lists (Items l) <-> Forall (fun i => (forall k, i <> Items k) /\ flat_lists i) l.
Proof.
  induction l as [|i l IH]; [split; [constructor|intros _; exact I]|]. rewrite Forall_cons_iff, <- IH. cbn. tauto.
Qed.
Lemma depth_tag n a c : depth (Tag n a c) = S (list_max (map depth (elems c))).
Proof. destruct c as [s|m b d|l]; [reflexivity| |reflexivity]. cbn [elems map list_max fold_right]. rewrite Nat.max_0_r. reflexivity. Qed.
Lemma depth_elems c : depth c <= S (list_max (map depth (elems c))).
Proof. destruct c as [s|m b d|l]; cbn [elems map list_max fold_right]; [lia|lia|reflexivity]. Qed.
Lemma depth_typography c : depth (set_typography c) = depth c.
Proof.
  induction c as [s|n a c IH|l IH] using content_ind'; [reflexivity| |].
  - cbn [TagCreation.set_typography]. destruct (typo n); [|reflexivity]. rewrite !depth_tag. f_equal.
    destruct c as [s|m b d|l]; cbn [TagCreation.set_typography elems map list_max fold_right] in *; [reflexivity|lia|].
    cbn [depth] in IH. injection IH as IH. exact IH.
  - cbn [TagCreation.set_typography depth]. f_equal. f_equal. rewrite map_map. apply map_ext_Forall, IH.
Qed.
Definition shallow (k : nat) (i : content) : Prop := (forall l, i <> Items l) /\ depth i <= k.
Lemma shallow_max k c : Forall (shallow k) (elems c) -> list_max (map depth (elems c)) <= k.
Proof. intros H. apply list_max_le, Forall_map. eapply Forall_impl; [|exact H]. intros i [_ Hi]. exact Hi. Qed.
Lemma shallow_groups k c : 1 <= k -> Forall (shallow k) (elems c) -> Forall (in_group (shallow k)) (cleaned (grouped_from [] (elems c))).
Proof.
  intros Hk H. apply cleaned_all, grouped_all; [|constructor|].
  - intros s _. apply Forall_forall. intros q _. split; [discriminate|exact Hk].
  - eapply Forall_impl; [|exact H]. intros [s|n a d|l] Hi; cbn [in_group]; try exact Hi. destruct Hi as [Hi _]. destruct (Hi l eq_refl).
Qed.
Lemma shallow_one k l : Forall (shallow k) l -> elems (one_or_list l) = l /\ depth (one_or_list l) <= S k.
Proof.
  intros H. assert (E : elems (one_or_list l) = l) by (apply elems_one; eapply Forall_impl; [|exact H]; intros i [Hi _]; exact Hi).
  split; [exact E|]. rewrite <- E in H. pose proof (shallow_max _ _ H). pose proof (depth_elems (one_or_list l)). lia.
Qed.
Lemma shallow_paragraphs k c : 1 <= k -> Forall (shallow k) (elems c) -> Forall (shallow (S k)) (elems (pure_paragraphs c)).
Proof.
  intros Hk H. rewrite pure_eq.
  assert (G : Forall (shallow (S k)) (elems (one_or_list (map mark_pars (cleaned (grouped_from [] (elems c))))))).
  { rewrite elems_one by apply mark_pars_not_items. apply Forall_map. eapply Forall_impl; [|apply (shallow_groups k c Hk H)].
    intros [s|n a d|sub] Hi; cbn [mark_pars in_group] in *; [split; [discriminate|destruct Hi; lia]|split; [discriminate|destruct Hi; lia]|].
    split; [discriminate|]. rewrite depth_tag. destruct (shallow_one _ _ Hi) as [E _]. rewrite <- E in Hi. apply shallow_max in Hi. lia. }
  destruct c; [exact G| |exact G]. eapply Forall_impl; [|exact H]. intros i [H1 H2]. split; [exact H1|lia].
Qed.
Lemma shallow_typography k c : Forall (shallow k) (elems c) -> Forall (shallow k) (elems (set_typography c)).
Proof.
  assert (G : forall i, shallow k i -> shallow k (set_typography i)).
  { intros i [H1 H2]. split; [|rewrite depth_typography; exact H2]. intros l. destruct i as [s|n a d|j]; try discriminate. destruct (H1 j eq_refl). }
  intros H. destruct c as [s|n a d|l]; cbn [elems TagCreation.set_typography] in *; [inversion H; constructor; [apply (G (Text s)); assumption|constructor]| |].
  - inversion H. constructor; [apply (G (Tag n a d)); assumption|constructor].
  - apply Forall_map. eapply Forall_impl; [|exact H]. exact G.
Qed.
Lemma shallow_finish_tag k n c : 1 <= k -> Forall (shallow k) (elems c) -> Forall (shallow (S k)) (elems (finish_tag n c)).
Proof.
  intros Hk H. unfold finish_tag.
  assert (H1 : Forall (shallow k) (elems (if typo n then set_typography c else c))) by (destruct (typo n); [apply shallow_typography|]; exact H).
  destruct (pars n); [apply shallow_paragraphs; assumption|]. eapply Forall_impl; [|exact H1]. intros i [E1 E2]. split; [exact E1|lia].
Qed.
Lemma shallow_le k k' l : k <= k' -> Forall (shallow k) l -> Forall (shallow k') l.
Proof. intros Hk. apply Forall_impl. intros i [E1 E2]. split; [exact E1|lia]. Qed.
Lemma list_max_in l n : In n l -> n <= list_max l.
Proof. intros H. pose proof (proj1 (list_max_le l (list_max l)) (Nat.le_refl _)) as F. rewrite Forall_forall in F. auto. Qed.
Lemma shallow_finish c : flat_lists c -> Forall (shallow (2 * nested c + 1)) (elems (finish c)).
Proof.
  induction c as [s|n a c IH|l IH] using content_ind'; intros Hf.
  - constructor; [split; [discriminate|reflexivity]|constructor].
  - cbn [finish elems]. constructor; [|constructor]. split; [discriminate|]. rewrite depth_tag.
    pose proof (shallow_finish_tag (2 * nested c + 1) n (finish c) ltac:(lia) (IH Hf)) as H. apply shallow_max in H. cbn [nested]. lia.
  - cbn [finish elems]. apply flat_items in Hf. apply Forall_map. rewrite Forall_forall in *. intros i Hi. destruct (Hf i Hi) as [Hn Hi'].
    pose proof (IH i Hi Hi') as F.
    assert (Hle : nested i <= nested (Items l)) by (apply list_max_in, in_map, Hi).
    destruct i as [s|n a d|j]; [| |destruct (Hn j eq_refl)]; cbn [finish elems] in F; apply Forall_cons_iff in F as [[_ F] _]; (split; [discriminate|]); cbn [finish]; lia.
Qed.
(** *** Parsing again *)
Lemma map_r_same {A} (f : A -> result A) l : Forall (fun x => f x = Ok x) l -> map_r f l = Ok l.
Proof. induction 1 as [|x l Hx _ IH]; [reflexivity|]. unfold map_r in *. rewrite Hx. cbn [bind]. rewrite IH. reflexivity. Qed.
Lemma items_with_none mk s : ~ has_tag s -> items_with mk (S (length s)) s = Ok (text_item s).
Proof. intros H. cbn [TagCreation.items_with]. rewrite (proj2 (search_open_none uw verbatim s) H). reflexivity. Qed.
Lemma parse_again mk : forall c, done c -> forall level, level + depth c <= 30 -> parse_with mk level c = Ok c.
Proof.
  assert (G : forall c, (done c -> forall level, level + depth c <= 30 -> parse_with mk level c = Ok c) /\
                        (forall l, c = Items l -> Forall (fun i => done i -> forall level, level + depth i <= 30 -> parse_with mk level i = Ok i) l)).
  2: { intros c. apply G. }
  assert (Hlist : forall l, Forall (fun i => done i -> forall level, level + depth i <= 30 -> parse_with mk level i = Ok i) l ->
            Forall done l -> forall level, level + list_max (map depth l) <= 30 -> map_r (parse_with mk level) l = Ok l).
  { intros l H1 H2 level Hd. apply map_r_same. rewrite Forall_forall in *. intros x Hx. apply H1; auto.
    assert (depth x <= list_max (map depth l)) by (apply list_max_in, in_map, Hx). lia. }
  induction c as [s|n a c [IH IHl]|l IH] using content_ind'.
  - split; [|discriminate]. intros Hr level Hd. apply done_text in Hr. cbn [depth] in Hd. cbn [TagCreation.parse_with].
    destruct (Nat.leb_spec tag_max_depth level); [unfold tag_max_depth in *; lia|]. rewrite (items_with_none mk s Hr). destruct s; reflexivity.
  - split; [|discriminate]. intros Hr level Hd. apply done_tag in Hr. rewrite depth_tag in Hd.
    assert (El : Nat.leb tag_max_depth level = false) by (apply Nat.leb_gt; unfold tag_max_depth; lia).
    destruct c as [s|n' a' c'|l].
    + change (parse_with mk level (Tag n a (Text s))) with
        (if Nat.leb tag_max_depth level then Raise TagError
         else do c'' <- parse_with mk (S level) (Text s); Ok (Tag n a c'')).
      rewrite El, IH; [reflexivity|exact Hr|]. cbn [elems map list_max fold_right] in Hd. lia.
    + change (parse_with mk level (Tag n a (Tag n' a' c'))) with
        (if Nat.leb tag_max_depth level then Raise TagError
         else do c'' <- parse_with mk (S level) (Tag n' a' c'); Ok (Tag n a c'')).
      rewrite El, IH; [reflexivity|exact Hr|]. cbn [elems map list_max fold_right] in Hd. lia.
    + cbn [TagCreation.parse_with]. rewrite El. apply done_items in Hr. cbn [elems] in Hd.
      rewrite Hlist; [reflexivity|apply IHl; reflexivity|exact Hr|lia].
  - assert (F : Forall (fun i => done i -> forall level, level + depth i <= 30 -> parse_with mk level i = Ok i) l)
      by (eapply Forall_impl; [|exact IH]; intros c Hc; apply Hc).
    split; [|intros l' [= <-]; exact F]. intros Hr level Hd. apply done_items in Hr. cbn [depth] in Hd.
    cbn [TagCreation.parse_with]. destruct (Nat.leb_spec tag_max_depth level); [unfold tag_max_depth in *; lia|].
    rewrite Hlist; [reflexivity|exact F|exact Hr|lia].
Qed.

(** *** Parsed texts have flat lists, and are not deep *)
Lemma flat_simplify l : Forall (fun i => (forall k, i <> Items k) /\ flat_lists i) l -> flat_lists (simplify l).
Proof.
  intros H. destruct l as [|i [|j l]]; cbn [simplify]; [exact I|inversion H as [|? ? [_ Hi] _]; exact Hi|apply flat_items, H].
Qed.
Lemma flat_text_item x : Forall (fun i => (forall k, i <> Items k) /\ flat_lists i) (text_item x).
Proof. destruct x; constructor; [split; [discriminate|exact I]|constructor]. Qed.
Lemma items_flat : forall x l, items x = Ok l -> Forall (fun i => (forall k, i <> Items k) /\ flat_lists i) l.
Proof.
  induction x as [x IH] using length_ind. intros l E.
  apply items_inv in E as [[-> _]|(sofar & name & attrs & opened & rest & i & r & c & l' & -> & _ & _ & _ & Hir & Hc & Hl & -> & Li & Lr)]; [apply flat_text_item|].
  apply Forall_app. split; [apply flat_text_item|]. constructor; [|apply (IH r Lr l' Hl)]. split; [discriminate|]. cbn [flat_lists].
  destruct (verbatim name); [subst c; exact I|]. rewrite parse_text_items in Hc. destruct (items i) as [k|] eqn:Ek; [|discriminate Hc].
  cbn [bind] in Hc. apply Ok_inj in Hc. subst c. apply flat_simplify, (IH i Li k Ek).
Qed.
Lemma nested_simplify l k : Forall (fun i => nested i <= k) l -> nested (simplify l) <= k.
Proof.
  intros H. destruct l as [|i [|j l]]; cbn [simplify]; [cbn; lia|inversion H; assumption|]. apply list_max_le, Forall_map, H.
Qed.
Lemma nested_text_item x k : Forall (fun i => nested i <= k) (text_item x).
Proof. destruct x; constructor; [cbn; lia|constructor]. Qed.
Lemma opens_app a b : opens (a ++ b) = opens a + opens b.
Proof. apply count_occ_app. Qed.
Lemma closes_app a b : closes (a ++ b) = closes a + closes b.
Proof. apply count_occ_app. Qed.
Lemma items_nested : forall x l, items x = Ok l -> forall pre n,
  (forall a b, x = a ++ b -> closes (pre ++ a) <= opens (pre ++ a) <= closes (pre ++ a) + n) ->
  Forall (fun i => nested i <= S n) l.
Proof.
  induction x as [x IH] using length_ind. intros l E pre n H.
  apply items_inv in E as [[-> _]|(sofar & name & attrs & opened & rest & i & r & c & l' & Ex & _ & _ & _ & Hir & Hc & Hl & -> & Li & Lr)]; [apply nested_text_item|].
  apply Forall_app. split; [apply nested_text_item|].
  destruct opened.
  - apply close_brace_iff in Hir as [-> Hin]; [|lia]. apply inside_1 in Hin as [[Hb1 Hb2] _]. cbn [brace_text] in Ex.
    set (q := sofar ++ [64%N] ++ name ++ attrs_text attrs) in *.
    assert (Eq : x = q ++ [123%N] ++ i ++ 125%N :: r) by (rewrite Ex; unfold q; rewrite <- !app_assoc; reflexivity).
    constructor.
    + cbn [nested]. apply le_n_S. destruct (verbatim name); [subst c; cbn; lia|].
      rewrite parse_text_items in Hc. destruct (items i) as [k|] eqn:Ek; [|discriminate Hc].
      cbn [bind] in Hc. apply Ok_inj in Hc. subst c. apply nested_simplify.
      assert (Hq : closes (pre ++ q) <= opens (pre ++ q) <= closes (pre ++ q) + n) by (apply (H q _ Eq)).
      assert (Hn : forall a b, i = a ++ b -> opens (pre ++ q) + 1 + opens a <= closes (pre ++ q) + closes a + n).
      { intros a b ->. specialize (H (q ++ [123%N] ++ a) (b ++ 125%N :: r)).
        rewrite !opens_app, !closes_app in *. change (opens [123%N]) with 1 in H. change (closes [123%N]) with 0 in H.
        assert (E : x = (q ++ [123%N] ++ a) ++ b ++ 125%N :: r) by (rewrite Eq, <- !app_assoc; reflexivity). specialize (H E). lia. }
      assert (Hn1 : 1 <= n) by (specialize (Hn [] i eq_refl); change (opens []) with 0 in Hn; change (closes []) with 0 in Hn; lia).
      replace n with (S (n - 1)) by lia. apply (IH i Li k Ek [] (n - 1)). intros a b Ei. cbn [app].
      specialize (Hn a b Ei). specialize (Hb2 a b Ei). lia.
    + apply (IH r Lr l' Hl (pre ++ q ++ [123%N] ++ i ++ [125%N]) n). intros a b ->.
      specialize (H (q ++ [123%N] ++ i ++ [125%N] ++ a) b). rewrite <- !app_assoc in *. apply H. rewrite Eq. reflexivity.
  - destruct Hir as [-> ->]. cbn [brace_text] in Ex. constructor.
    + cbn [nested]. destruct (verbatim name); [subst c; cbn; lia|].
      change (parse_text []) with (Ok (Text [])) in Hc. apply Ok_inj in Hc. subst c. cbn. lia.
    + apply (IH rest Lr l' Hl (pre ++ sofar ++ [64%N] ++ name ++ attrs_text attrs) n). intros a b ->.
      specialize (H (sofar ++ [64%N] ++ name ++ attrs_text attrs ++ a) b). rewrite <- !app_assoc in *. apply H. rewrite Ex. reflexivity.
Qed.
Lemma items_nested_10 : forall x l, items x = Ok l -> Forall (fun i => nested i <= 10) l.
Proof.
  induction x as [x IH] using length_ind. intros l E.
  apply items_inv in E as [[-> _]|(sofar & name & attrs & opened & rest & i & r & c & l' & Ex & _ & _ & _ & Hir & Hc & Hl & -> & Li & Lr)]; [apply nested_text_item|].
  apply Forall_app. split; [apply nested_text_item|]. constructor; [|apply (IH r Lr l' Hl)]. cbn [nested]. apply le_n_S.
  destruct (verbatim name); [subst c; cbn; lia|]. rewrite parse_text_items in Hc. destruct (items i) as [k|] eqn:Ek; [|discriminate Hc].
  cbn [bind] in Hc. apply Ok_inj in Hc. subst c. apply nested_simplify.
  destruct opened.
  - apply close_brace_iff in Hir as [-> Hin]; [|lia]. apply inside_1 in Hin as [[Hb1 Hb2] Hb3].
    apply (items_nested i k Ek [] 8). intros a b Ei. cbn [app]. specialize (Hb2 a b Ei). specialize (Hb3 a b Ei). lia.
  - destruct Hir as [-> _]. change (items []) with (@Ok (list content) []) in Ek. apply Ok_inj in Ek. subst k. constructor.
Qed.

(** *** Creation *)
Lemma finish_simplify l : finish (simplify l) = simplify (map finish l).
Proof. destruct l as [|i [|j l]]; reflexivity. Qed.
Lemma finish_text_item x : map finish (text_item x) = text_item x.
Proof. destruct x; reflexivity. Qed.
Definition parsed (n : str) (x : str) (c : content) : Prop := if verbatim n then c = Text x else parse_text x = Ok c.
Lemma items_make mk : forall g x l, length x < g -> items x = Ok l -> Forall done l -> Forall (fun i => nested i <= 10) l ->
  (forall n i c, length i < length x -> parsed n i c -> done c -> nested c <= 10 -> mk n (Text i) = Ok (finish_tag n (finish c))) ->
  items_with mk g x = Ok (map finish l).
Proof.
  induction g as [|g IH]; intros x l Hg E Hd Hn Hmk; [lia|]. rewrite items_step in E. cbn [TagCreation.items_with].
  destruct (search_open uw x) as [[sofar [[[name attrs] opened] rest]]|] eqn:Es.
  - pose proof (rest_shorter _ _ _ _ _ _ _ Es) as Hr.
    destruct (if opened then match close_brace 1 rest with Some p => Ok p | None => Raise TagError end else Ok ([], rest)) as [[i r]|] eqn:Eir; [|discriminate E].
    assert (Hl : length i < length x /\ length r < length x).
    { destruct opened; [|apply Ok_inj in Eir; apply (f_equal (fun p => (fst p, snd p))) in Eir; cbn [fst snd] in Eir; injection Eir as <- <-; cbn; lia].
      destruct (close_brace 1 rest) as [p|] eqn:Ec; [|discriminate Eir]. apply Ok_inj in Eir. subst p. apply close_shorter in Ec. lia. }
    cbn [bind fst snd] in *.
    destruct (if verbatim name then Ok (Text i) else parse_text i) as [c|] eqn:Ec; [|discriminate E]. cbn [bind] in E.
    destruct (items r) as [l'|] eqn:El; [|discriminate E]. cbn [bind] in E. apply Ok_inj in E. subst l.
    apply Forall_app in Hd as [_ Hd]. apply Forall_cons_iff in Hd as [Hd1 Hd2]. apply done_tag in Hd1.
    apply Forall_app in Hn as [_ Hn]. apply Forall_cons_iff in Hn as [Hn1 Hn2]. cbn [nested] in Hn1.
    rewrite (Hmk name i c); [|lia| |exact Hd1|lia].
    2: { unfold parsed. destruct (verbatim name); [apply Ok_inj in Ec; symmetry; exact Ec|exact Ec]. }
    cbn [bind]. rewrite (IH r l'); [|lia|exact El|exact Hd2|exact Hn2|intros n j d Hj; apply Hmk; lia].
    cbn [bind]. rewrite map_app, finish_text_item. reflexivity.
  - apply Ok_inj in E. subst l. rewrite finish_text_item. reflexivity.
Qed.
Lemma make_paragraph f c : done c -> stable c -> 1 + depth c <= 30 -> make (S f) (lit "p") c = Ok c.
Proof.
  intros H1 H2 H3. destruct Hp as (Hv & Ht & _ & Hpp & _). cbn [TagCreation.make]. rewrite Hv, Ht, Hpp.
  replace (match c with Text s => Text (mac s) | _ => c end) with c by (destruct c; [rewrite Hmac|..]; reflexivity).
  rewrite (parse_again _ c H1 1 H3). cbn [bind]. rewrite H2. reflexivity.
Qed.
Lemma map_r_map {A B} (f : A -> result B) (g : A -> B) l : Forall (fun x => f x = Ok (g x)) l -> map_r f l = Ok (map g l).
Proof. induction 1 as [|x l Hx _ IH]; [reflexivity|]. unfold map_r in *. rewrite Hx. cbn [bind]. rewrite IH. reflexivity. Qed.
Lemma make_groups f c k : done c -> stable c -> Forall (shallow k) (elems c) -> 1 <= k -> k + 2 <= 30 ->
  make_paragraphs (make (S f) (lit "p")) (cleaned (grouped_from [] (elems c))) = Ok (map mark_pars (cleaned (grouped_from [] (elems c)))).
Proof.
  intros H1 H2 H3 Hk1 Hk2. unfold make_paragraphs. apply map_r_map.
  pose proof (done_groups c H1) as G1. pose proof (stable_groups c H2) as G2. pose proof (shallow_groups k c Hk1 H3) as G3.
  rewrite Forall_forall in *. intros i Hi. specialize (G1 i Hi). specialize (G2 i Hi). specialize (G3 i Hi).
  destruct i as [s|n a d|sub]; [reflexivity|reflexivity|]. cbn [in_group mark_pars] in *.
  rewrite (make_paragraph f); [reflexivity|apply done_one, G1|apply stable_one, G2|]. destruct (shallow_one k sub G3) as [_ Hd]. lia.
Qed.
Lemma make_finish : forall f n x c, length x + 2 <= f -> parsed n x c -> done c -> nested c <= 10 ->
  make f n (Text x) = Ok (finish_tag n (finish c)).
Proof.
  induction f as [|f IH]; intros n x c Hf Hc Hd Hn; [lia|]. cbn [TagCreation.make]. rewrite Hmac.
  assert (Hflat : flat_lists c /\ (if verbatim n then Ok (Text x) else parse_with (make f) 1 (Text x)) = Ok (finish c)).
  { unfold parsed in Hc. destruct (verbatim n) eqn:Ev; [subst c; split; [exact I|reflexivity]|].
    rewrite parse_text_items in Hc. destruct (items x) as [l|] eqn:El; [|discriminate Hc]. cbn [bind] in Hc. apply Ok_inj in Hc. subst c.
    split; [apply flat_simplify, (items_flat x), El|].
    cbn [TagCreation.parse_with]. change (Nat.leb tag_max_depth 1) with false. cbv iota.
    rewrite (items_make (make f) (S (length x)) x l); [cbn [bind]; rewrite finish_simplify; reflexivity|lia|exact El| |apply (items_nested_10 x), El|].
    - destruct l as [|i [|j l]]; [constructor|constructor; [exact Hd|constructor]|apply done_items, Hd].
    - intros m i d Hi Hpd Hdd Hnd. apply IH; [lia|exact Hpd|exact Hdd|exact Hnd]. }
  destruct Hflat as [Hflat ->]. cbn [bind]. unfold finish_tag.
  destruct (pars n) eqn:Ep; [|reflexivity]. destruct Hp as (_ & _ & _ & _ & Hpt). destruct (Hpt n Ep) as [Ht _]. rewrite Ht.
  assert (G1 : done (set_typography (finish c))) by (apply done_typography, done_finish, Hd).
  assert (G2 : stable (set_typography (finish c))) by apply set_typography_twice.
  assert (G3 : Forall (shallow 21) (elems (set_typography (finish c)))).
  { apply shallow_typography, (shallow_le (2 * nested c + 1)); [lia|]. apply shallow_finish, Hflat. }
  destruct f as [|f]; [lia|]. pose proof (make_groups f _ 21 G1 G2 G3 ltac:(lia) ltac:(lia)) as G.
  unfold paragraphs_with. rewrite pure_eq. destruct (set_typography (finish c)) as [s|m b d|l]; [|reflexivity|]; cbn [elems] in *; rewrite G; reflexivity.
Qed.
(** *** Letters and tags *)
Notation events := (events typo).
Definition evs (l : list content) : list event := concat (map (events false) l).
Lemma evs_app a b : evs (a ++ b) = evs a ++ evs b.
Proof. unfold evs. rewrite map_app, concat_app. reflexivity. Qed.
Lemma evs_one i : evs [i] = events false i.
Proof. unfold evs. cbn. apply app_nil_r. Qed.
Lemma events_items l : events false (Items l) = evs l.
Proof. reflexivity. Qed.
Lemma events_one_or_list l : events false (one_or_list l) = evs l.
Proof. destruct l as [|i [|j l]]; [reflexivity|symmetry; apply evs_one|reflexivity]. Qed.
Lemma events_elems c : evs (elems c) = events false c.
Proof. destruct c; [apply evs_one|apply evs_one|reflexivity]. Qed.
Lemma added_p n a : added n a = true -> n = lit "p".
Proof. unfold added. intros H. apply andb_true_iff in H as [H _]. apply eqb_eq in H. exact H. Qed.
Lemma events_typography c : events false (set_typography c) = events false c.
Proof.
  induction c as [s|n a c IH|l IH] using content_ind'; cbn [TagCreation.set_typography TagCreation.events].
  - rewrite letters_typography by exact Huw. reflexivity.
  - destruct (added n a) eqn:Ea.
    + apply added_p in Ea. subst n. destruct Hp as (_ & Ht & _). rewrite Ht. exact IH.
    + destruct (typo n); cbn [negb]; [rewrite IH|]; reflexivity.
  - rewrite map_map. f_equal. apply map_ext_Forall, IH.
Qed.
Lemma evs_close sub : evs (close_sub sub) = evs sub.
Proof. destruct sub; [reflexivity|]. apply evs_one. Qed.
Lemma evs_text p : evs (text_of_nonempty p) = map Char (filter letter p).
Proof. destruct p; [reflexivity|]. apply evs_one. Qed.
Lemma evs_texts : forall ps sub, evs (fst (add_texts sub ps)) ++ evs (snd (add_texts sub ps)) = evs sub ++ map Char (concat (map (filter letter) ps)).
Proof.
  induction ps as [|p ps IH]; intros sub; [cbn; rewrite app_nil_r; reflexivity|]. rewrite add_texts_cons. destruct ps as [|q ps].
  - cbn [fst snd map concat]. rewrite evs_app, evs_text, app_nil_r. reflexivity.
  - cbn [fst snd]. rewrite evs_app, evs_close, evs_app, evs_text, <- app_assoc, IH. change (evs []) with (@nil event). cbn [app].
    change (concat (map (filter letter) (p :: q :: ps))) with (filter letter p ++ concat (map (filter letter) (q :: ps))).
    rewrite map_app, <- app_assoc. reflexivity.
Qed.
Lemma evs_grouped : forall l sub, evs (grouped_from sub l) = evs sub ++ evs l.
Proof.
  induction l as [|i l IH]; intros sub; cbn [TagCreation.grouped_from]; [rewrite evs_close; cbn; rewrite app_nil_r; reflexivity|].
  change (i :: l) with ([i] ++ l). rewrite (evs_app [i] l), evs_one. destruct i as [s|n a c|k].
  - pose proof (evs_texts (split_para 0 s) sub) as E. destruct (add_texts sub (split_para 0 s)) as [gs sub']. cbn [fst snd] in E.
    rewrite evs_app, IH, app_assoc, E, letters_pieces, <- app_assoc. reflexivity.
  - destruct (include n); [rewrite IH, evs_app, evs_one, <- app_assoc; reflexivity|].
    rewrite evs_app, evs_close. f_equal. change (Tag n a c :: grouped_from [] l) with ([Tag n a c] ++ grouped_from [] l).
    rewrite evs_app, evs_one, IH. reflexivity.
  - rewrite evs_app, evs_close. f_equal. change (Items k :: grouped_from [] l) with ([Items k] ++ grouped_from [] l).
    rewrite evs_app, evs_one, IH. reflexivity.
Qed.
Lemma evs_cleaned l : evs (cleaned l) = evs l.
Proof.
  induction l as [|i l IH]; [reflexivity|]. change (i :: l) with ([i] ++ l) at 2. rewrite evs_app, evs_one, <- IH.
  unfold cleaned. cbn [filter]. destruct i as [s|n a c|sub].
  - change (Text s :: ?k) with ([Text s] ++ k). reflexivity.
  - reflexivity.
  - destruct (forallb blank_text sub) eqn:E; cbn [negb]; [|reflexivity].
    replace (events false (Items sub)) with (@nil event); [reflexivity|]. rewrite events_items.
    induction sub as [|j sub IHs]; [reflexivity|]. cbn [forallb] in E. apply andb_true_iff in E as [Ej E].
    change (j :: sub) with ([j] ++ sub). rewrite evs_app, <- (IHs E), app_nil_r, evs_one.
    destruct j as [s| |]; try discriminate Ej. cbn [blank_text] in Ej. apply eqb_eq, strip_blank in Ej. cbn. rewrite (filter_letter_spaces s Ej). reflexivity.
Qed.
Lemma evs_mark l : evs (map mark_pars l) = evs l.
Proof.
  unfold evs. rewrite map_map. f_equal. apply map_ext. intros [s|n a c|sub]; [reflexivity|reflexivity|].
  cbn [mark_pars]. change (events false (Tag (lit "p") (Some []) (one_or_list sub))) with (events false (one_or_list sub)). apply events_one_or_list.
Qed.
Lemma events_paragraphs c : events false (pure_paragraphs c) = events false c.
Proof.
  rewrite pure_eq.
  assert (G : events false (one_or_list (map mark_pars (cleaned (grouped_from [] (elems c))))) = events false c)
    by (rewrite events_one_or_list, evs_mark, evs_cleaned, evs_grouped, events_elems; reflexivity).
  destruct c; [exact G|reflexivity|exact G].
Qed.
Lemma events_finish_tag n c : typo n = true -> events false (finish_tag n c) = events false c.
Proof. intros Ht. unfold finish_tag. rewrite Ht. destruct (pars n); [rewrite events_paragraphs|]; apply events_typography. Qed.
Lemma events_finish : forall c e, events e (finish c) = events e c.
Proof.
  induction c as [s|n a c IH|l IH] using content_ind'; intros e; cbn [finish TagCreation.events]; [reflexivity| |].
  - destruct (added n a) eqn:Ea.
    + apply added_p in Ea. subst n. rewrite events_finish_tag; [apply IH|exact (proj1 (proj2 Hp))].
    + destruct (typo n) eqn:Et; cbn [negb]; [rewrite events_finish_tag, IH by exact Et; reflexivity|].
      unfold finish_tag. rewrite Et. destruct (pars n) eqn:Ep; [|rewrite IH; reflexivity].
      destruct Hp as (_ & _ & _ & _ & Hpt). destruct (Hpt n Ep). congruence.
  - rewrite map_map. f_equal. apply map_ext_Forall. eapply Forall_impl; [|exact IH]. intros i Hi. apply Hi.
Qed.

(** *** Without paragraphs *)
Lemma finish_typeset : forall c, Forall (fun n => pars n = false) (names c) ->
  forall w, typeset uw typo w c = if w then set_typography (finish c) else finish c.
Proof.
  induction c as [s|n a c IH|l IH] using content_ind'; intros Hn w; cbn [typeset finish names] in *.
  - destruct w; reflexivity.
  - apply Forall_cons_iff in Hn as [H1 H2]. rewrite (IH H2 (typo n)). unfold finish_tag. rewrite H1.
    destruct w; [|reflexivity]. cbn [TagCreation.set_typography]. destruct (typo n); [|reflexivity]. f_equal. symmetry. apply set_typography_twice.
  - assert (G : forall v, map (typeset uw typo v) l = map (fun i => if v then set_typography (finish i) else finish i) l).
    { intros v. apply map_ext_Forall. rewrite Forall_forall in *. intros i Hi. apply IH; [exact Hi|].
      rewrite Forall_forall. intros n H. apply Hn, in_concat. exists (names i). split; [apply in_map, Hi|exact H]. }
    rewrite G. destruct w; cbn [TagCreation.set_typography]; [rewrite map_map|]; reflexivity.
Qed.

(** *** Unclosed tags *)
Lemma items_with_ok mk : (forall n i c, mk n (Text i) = Ok c -> verbatim n = true \/ exists c0, parse_text i = Ok c0) ->
  forall g x l, items_with mk g x = Ok l -> exists l0, items x = Ok l0.
Proof.
  intros Hmk. induction g as [|g IH]; intros x l E; [discriminate E|]. cbn [TagCreation.items_with] in E. rewrite items_step.
  destruct (search_open uw x) as [[sofar [[[name attrs] opened] rest]]|]; [|eauto].
  destruct (if opened then match close_brace 1 rest with Some p => Ok p | None => Raise TagError end else Ok ([], rest)) as [[i r]|]; [|discriminate E].
  cbn [bind fst snd] in *. destruct (mk name (Text i)) as [c|] eqn:Ec; [|discriminate E]. cbn [bind] in E.
  destruct (items_with mk g r) as [l'|] eqn:El; [|discriminate E]. destruct (IH r l' El) as [l0 ->].
  destruct (Hmk name i c Ec) as [Hv|[c0 Hc0]]; [rewrite Hv; cbn [bind]; eauto|]. rewrite Hc0. destruct (verbatim name); cbn [bind]; eauto.
Qed.
Lemma make_ok : forall f n x c, make f n (Text x) = Ok c -> verbatim n = true \/ exists c0, parse_text x = Ok c0.
Proof.
  induction f as [|f IH]; intros n x c E; [discriminate E|]. cbn [TagCreation.make] in E. rewrite Hmac in E.
  destruct (verbatim n); [left; reflexivity|]. right.
  destruct (parse_with (make f) 1 (Text x)) as [c2|] eqn:E2; [|discriminate E]. clear E. cbn [TagCreation.parse_with] in E2.
  change (Nat.leb tag_max_depth 1) with false in E2. cbv iota in E2.
  destruct (items_with (make f) (S (length x)) x) as [l|] eqn:El; [|discriminate E2].
  destruct (items_with_ok (make f) (fun n i c => IH n i c) _ _ _ El) as [l0 E0]. exists (simplify l0). rewrite parse_text_items, E0. reflexivity.
Qed.
(** *** Paragraphs *)
Notation arranged := (arranged include).
Notation in_paragraph := (in_paragraph include).
Definition marked (l : list content) : list content := map mark_pars (cleaned l).
Lemma marked_app a b : marked (a ++ b) = marked a ++ marked b.
Proof. unfold marked, cleaned. rewrite filter_app, map_app. reflexivity. Qed.
Lemma marked_close sub : marked (close_sub sub) = if forallb blank_text sub then [] else [Tag (lit "p") (Some []) (one_or_list sub)].
Proof.
  destruct sub as [|i sub]; [reflexivity|]. unfold marked, close_sub, cleaned. cbn [filter]. destruct (forallb blank_text (i :: sub)); reflexivity.
Qed.
Lemma pieces_app a b : pieces_of (a ++ b) = pieces_of a ++ pieces_of b.
Proof. unfold pieces_of. rewrite map_app, concat_app. reflexivity. Qed.
Lemma pieces_one i : pieces_of [i] = match i with Text s => map PChar s | _ => [PTag i] end.
Proof. unfold pieces_of. cbn [map concat]. apply app_nil_r. Qed.
Lemma pieces_text p : pieces_of (text_of_nonempty p) = map PChar p.
Proof. destruct p; [reflexivity|apply pieces_one]. Qed.
Lemma map_PChar_inj a b : map PChar a = map PChar b -> a = b.
Proof. revert b. induction a as [|c a IH]; intros [|d b] H; try discriminate; [reflexivity|]. injection H as -> H. f_equal. auto. Qed.
Lemma blank_texts sub : forallb blank_text sub = true <-> exists t, pieces_of sub = map PChar t /\ blank t.
Proof.
  induction sub as [|i sub IH].
  - split; [|reflexivity]. intros _. exists []. split; [reflexivity|constructor].
  - cbn [forallb]. rewrite andb_true_iff, IH. change (i :: sub) with ([i] ++ sub). rewrite pieces_app, pieces_one. split.
    + intros [Hi (t & Et & Ht)]. destruct i as [s| |]; try discriminate. cbn [blank_text] in Hi. apply eqb_eq in Hi.
      exists (s ++ t). rewrite Et, map_app. split; [reflexivity|]. apply Forall_app. split; [|exact Ht]. apply strip_blank, Hi.
    + intros (t & Et & Ht). destruct i as [s| |]; try (destruct t; discriminate).
      symmetry in Et. apply map_eq_app in Et as (t1 & t2 & -> & E1 & E2). apply map_PChar_inj in E1 as ->.
      apply Forall_app in Ht as [H1 H2]. split; [|eauto]. cbn [blank_text]. apply eqb_eq. apply strip_blank. exact H1.
Qed.
Lemma elems_par sub : Forall in_paragraph sub -> elems (one_or_list sub) = sub.
Proof. intros H. apply elems_one. eapply Forall_impl; [|exact H]. intros [s|n a c|l] Hi; [discriminate|discriminate|destruct Hi]. Qed.
Lemma close_par b w sub e l :
  blank w -> (b = true -> has_break w) -> Forall in_paragraph sub ->
  (forall w', blank w' -> (b = true -> has_break w') -> forallb blank_text sub = true -> arranged b (map PChar w' ++ e) l) ->
  (forallb blank_text sub = false -> arranged true e l) ->
  arranged b (map PChar w ++ pieces_of sub ++ e) (marked (close_sub sub) ++ l).
Proof.
  intros Hw Hb Hs H1 H2. rewrite marked_close. destruct (forallb blank_text sub) eqn:E.
  - apply blank_texts in E as E'. destruct E' as (t & -> & Ht). cbn [app]. rewrite app_assoc, <- map_app. apply H1; [|intros; apply has_break_app_l; auto|reflexivity].
    apply Forall_app. auto.
  - cbn [app]. rewrite <- (elems_par sub Hs) at 1. apply ar_par; auto.
    + rewrite (elems_par sub Hs). exact Hs.
    + rewrite (elems_par sub Hs), <- blank_texts. congruence.
Qed.
Lemma arrange_texts rest out s ps : psplit s ps -> forall b w sub,
  blank w -> (b = true -> has_break w) -> Forall in_paragraph sub ->
  (forall b w sub, blank w -> (b = true -> has_break w) -> Forall in_paragraph sub ->
     arranged b (map PChar w ++ pieces_of sub ++ rest) (marked (out sub))) ->
  arranged b (map PChar w ++ pieces_of sub ++ map PChar s ++ rest)
    (marked (fst (add_texts sub ps) ++ out (snd (add_texts sub ps)))).
Proof.
  induction 1 as [p Hpp|p u x ps Hpp H2 H3 H4 H5 Hx IH]; intros b w sub Hw Hb Hs Hout; rewrite add_texts_cons.
  - cbn [fst snd app]. replace (pieces_of sub ++ map PChar p ++ rest) with (pieces_of (sub ++ text_of_nonempty p) ++ rest).
    + apply Hout; auto. apply Forall_app. split; [exact Hs|]. destruct p; repeat constructor. exact Hpp.
    + rewrite pieces_app, pieces_text, app_assoc. reflexivity.
  - replace (match ps with [] => ([], sub ++ text_of_nonempty p) | _ :: _ => (close_sub (sub ++ text_of_nonempty p) ++ fst (add_texts [] ps), snd (add_texts [] ps)) end)
      with (close_sub (sub ++ text_of_nonempty p) ++ fst (add_texts [] ps), snd (add_texts [] ps)).
    2:{ destruct Hx; reflexivity. }
    cbn [fst snd]. rewrite <- app_assoc, marked_app.
    replace (pieces_of sub ++ map PChar (p ++ u ++ x) ++ rest) with (pieces_of (sub ++ text_of_nonempty p) ++ map PChar u ++ map PChar x ++ rest).
    2:{ rewrite pieces_app, pieces_text, !map_app. rewrite <- !app_assoc. reflexivity. }
    assert (Hu : blank u) by (apply spaces_blank; exact H3).
    apply close_par; auto.
    + apply Forall_app. split; [exact Hs|]. destruct p; repeat constructor. exact Hpp.
    + intros w' Hw' Hb' _. rewrite app_assoc, <- map_app. apply (IH b (w' ++ u) []); auto.
      * apply Forall_app. auto.
      * intros _. apply has_break_app_r. exact H4.
    + intros _. apply (IH true u []); auto.
Qed.
Lemma arrange : forall l, Forall (fun i => forall k, i <> Items k) l -> forall b w sub, blank w -> (b = true -> has_break w) -> Forall in_paragraph sub ->
  arranged b (map PChar w ++ pieces_of sub ++ pieces_of l) (marked (grouped_from sub l)).
Proof.
  induction l as [|i l IH]; intros Hf b w sub Hw Hb Hs.
  - cbn [TagCreation.grouped_from]. rewrite <- (app_nil_r (marked (close_sub sub))). apply close_par; auto.
    + intros w' Hw' _ _. change (pieces_of []) with (@nil piece). rewrite app_nil_r. constructor. exact Hw'.
    + intros _. apply (ar_end include true []). constructor.
  - apply Forall_cons_iff in Hf as [Hi Hf']. specialize (IH Hf'). change (i :: l) with ([i] ++ l) at 1. rewrite pieces_app, pieces_one.
    destruct i as [s|n a c|k]; [| |destruct (Hi k eq_refl)]; cbn [TagCreation.grouped_from].
    + destruct (add_texts sub (split_para 0 s)) as [gs sub'] eqn:E.
      replace gs with (fst (add_texts sub (split_para 0 s))) by (rewrite E; reflexivity).
      replace sub' with (snd (add_texts sub (split_para 0 s))) by (rewrite E; reflexivity).
      apply (arrange_texts (pieces_of l) (fun sub => grouped_from sub l) s); auto. apply split_para_psplit.
    + destruct (include n) eqn:En.
      * replace (pieces_of sub ++ [PTag (Tag n a c)] ++ pieces_of l) with (pieces_of (sub ++ [Tag n a c]) ++ pieces_of l)
          by (rewrite pieces_app, pieces_one, <- app_assoc; reflexivity).
        apply IH; auto. apply Forall_app. split; [exact Hs|]. constructor; [exact En|constructor].
      * rewrite marked_app.
        assert (E : marked (Tag n a c :: grouped_from [] l) = Tag n a c :: marked (grouped_from [] l)) by reflexivity.
        rewrite E. apply close_par; auto.
        -- intros w' Hw' _ _. apply ar_solo; auto. apply (IH false [] []); auto; [constructor|discriminate].
        -- intros _. apply (ar_solo include true []); auto; [constructor|]. apply (IH false [] []); auto; [constructor|discriminate].
Qed.
Lemma set_items c : flat_lists c -> Forall2 (set_item uw) (elems c) (elems (set_typography (finish c))) /\
  Forall (fun i => forall k, i <> Items k) (elems (set_typography (finish c))).
Proof.
  intros Hf. destruct c as [s|n a c|l]; cbn [finish TagCreation.set_typography elems].
  - split; [constructor; [constructor|constructor]|constructor; [discriminate|constructor]].
  - split; [constructor; [constructor|constructor]|constructor; [discriminate|constructor]].
  - apply flat_items in Hf. induction Hf as [|i l [Hi _] _ [IH1 IH2]]; [split; constructor|]. cbn [map].
    destruct i as [s|n a c|k]; [| |destruct (Hi k eq_refl)]; (split; constructor; [constructor|exact IH1|discriminate|exact IH2]).
Qed.
Lemma arranged_finish n c : pars n = true -> flat_lists c -> (forall m a d, c <> Tag m a d) ->
  exists d, Forall2 (set_item uw) (elems c) d /\ arranged false (pieces_of d) (elems (finish_tag n (finish c))).
Proof.
  intros Hn Hf Hc. destruct (set_items c Hf) as [H1 H2]. eexists. split; [exact H1|].
  unfold finish_tag. rewrite Hn. destruct Hp as (_ & _ & _ & _ & Hpt). destruct (Hpt n Hn) as [-> _].
  rewrite pure_eq. assert (G : arranged false (pieces_of (elems (set_typography (finish c)))) (elems (one_or_list (map mark_pars (cleaned (grouped_from [] (elems (set_typography (finish c))))))))).
  { rewrite elems_one by apply mark_pars_not_items. apply (arrange _ H2 false [] []); [constructor|discriminate|constructor]. }
  destruct c as [s|m a d|l]; [exact G|destruct (Hc m a d eq_refl)|exact G].
Qed.
End Creation.

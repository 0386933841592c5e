(** C68: the files of an epub *)
From Coq Require Import List Bool Arith NArith Lia.
From Verif.Base Require Import Str StrFacts Result PurePath.
From Verif.Model Require Import ListUtils Epub.
From Verif.Spec Require Import ListUtils Epub.
From Verif.Props Require Import ListUtils.
From Verif.Props Require TargetBuilders.
Import ListNotations.

(** ** Normal paths *)
Lemma norm_snoc b x : norm (b ++ [x]) = rev (nstep (fold_left nstep b nil) x).
Proof. unfold norm. now rewrite fold_left_app. Qed.
Lemma stays_snoc b x : stays (b ++ [x]) -> stays b.
Proof. intros H a c ->. apply (H a (c ++ [x])). now rewrite app_assoc. Qed.
Lemma norm_walk b : stays b ->
  ~ In (lit "..") (norm b) /\
  length (norm b) + length (filter (fun x => eqb x (lit "..")) b) = length (filter (fun x => negb (eqb x (lit ".."))) b) /\
  forall dir, walk dir b = dir ++ norm b.
Proof.
  induction b as [|x b IH] using rev_ind; intro S.
  - split; [intros []|]. split; [reflexivity|]. intro dir. symmetry. apply app_nil_r.
  - destruct (IH (stays_snoc b x S)) as (N & L & W). specialize (S (b ++ [x]) nil ltac:(now rewrite app_nil_r)).
    rewrite !filter_app, !app_length in S |- *. cbn [filter] in S |- *. rewrite norm_snoc.
    unfold norm in N, L, W |- *. remember (fold_left nstep b nil) as acc eqn:EA. clear EA. unfold nstep.
    assert (WX : forall dir, walk dir (b ++ [x]) = (if eqb x (lit "..") then removelast (walk dir b) else walk dir b ++ [x]))
      by (intro dir; unfold walk; now rewrite fold_left_app).
    destruct (eqb_spec x (lit "..")) as [->|Nx]; cbn [negb length] in S |- *.
    + destruct acc as [|t r]; [cbn [rev length] in L; lia|].
      destruct (eqb_spec t (lit "..")) as [->|Nt].
      { exfalso. apply N. apply (proj1 (in_rev _ _)). now left. }
      split; [intro I; apply N; apply (proj1 (in_rev _ _)); right; exact (proj2 (in_rev _ _) I)|]. split.
      * rewrite rev_length in L |- *. cbn [length] in L. lia.
      * intro dir. rewrite WX, W. cbn [rev]. rewrite app_assoc. apply removelast_last.
    + split; [intro I; apply (proj2 (in_rev _ _)) in I; destruct I as [I|I]; [now apply Nx | apply N; exact (proj1 (in_rev _ _) I)]|]. split.
      * rewrite rev_length in L |- *. cbn [length]. lia.
      * intro dir. rewrite WX, W. cbn [rev]. now rewrite app_assoc.
Qed.
Lemma fold_norm b s : fold_left nstep (norm b) s = fold_left nstep b s.
Proof.
  induction b as [|x b IH] using rev_ind; [reflexivity|].
  rewrite fold_left_app, norm_snoc. unfold norm in IH. revert IH.
  generalize (fold_left nstep b nil) (fold_left nstep b s). intros acc t IH. cbn [fold_left].
  assert (G : forall y, nstep acc y = y :: acc -> fold_left nstep (rev (nstep acc y)) s = nstep t y).
  { intros y E. rewrite E. cbn [rev]. rewrite fold_left_app. cbn [fold_left]. now rewrite IH. }
  destruct (eqb_spec x (lit "..")) as [->|Nx]; [|apply G; unfold nstep; now rewrite (proj2 (eqb_neq _ _) Nx)].
  destruct acc as [|u r]; [now apply G|].
  destruct (eqb_spec u (lit "..")) as [->|Nu]; [now apply G|].
  assert (E : nstep (u :: r) (lit "..") = r) by (unfold nstep; rewrite eqb_refl; now rewrite (proj2 (eqb_neq _ _) Nu)).
  rewrite E. cbn [rev] in IH. rewrite fold_left_app in IH. cbn [fold_left] in IH. rewrite <- IH.
  generalize (fold_left nstep (rev r) s). intro v. unfold nstep at 2. rewrite (proj2 (eqb_neq _ _) Nu).
  unfold nstep. rewrite eqb_refl. now rewrite (proj2 (eqb_neq _ _) Nu).
Qed.
(** The name of an entry is that of the list of contents, in its directory *)
Lemma norm_cons x b : norm (x :: norm b) = norm (x :: b).
Proof. unfold norm at 1 3. cbn [fold_left]. now rewrite fold_norm. Qed.
Lemma stays_cons x b : stays b -> x <> lit ".." -> stays (x :: b).
Proof.
  intros S N a c E. destruct a as [|y a]; [apply le_n|]. injection E as <- E.
  cbn [filter]. rewrite (proj2 (eqb_neq _ _) N). cbn [negb length]. specialize (S a c E). lia.
Qed.
Lemma norm_stays x b : stays b -> x <> lit ".." -> norm (x :: b) = x :: norm b.
Proof.
  intros S N. pose proof (proj2 (proj2 (norm_walk _ (stays_cons x b S N))) nil) as A. cbn [app] in A. rewrite <- A.
  unfold walk. cbn [fold_left]. rewrite (proj2 (eqb_neq _ _) N). change (walk [x] b = x :: norm b).
  now rewrite (proj2 (proj2 (norm_walk b S))).
Qed.

(** ** The files *)
Lemma place_resolve f : resolve f = place f. Proof. reflexivity. Qed.
Lemma params_first l : parameters l = first_occurrences place l.
Proof. apply C04_uniq_first_occurrences. Qed.
Lemma params_in l f : In f (parameters l) -> In f l.
Proof. apply (proj1 (proj2 (C04_uniq_members _ _ _ resolve l))). Qed.
Lemma params_nodup l : NoDup (map place (parameters l)).
Proof. exact (proj1 (C04_uniq_members _ _ _ resolve l)). Qed.
Lemma params_place l f : In f l -> exists g, In g (parameters l) /\ place g = place f.
Proof.
  intro H. destruct (proj2 (proj2 (C04_uniq_members _ _ _ resolve l)) f H) as (g & A & B). exists g. split; [exact A | exact B].
Qed.

(** ** The archive *)
Lemma archive_copy l name g : In (name, Copy g) (archive l) <-> In g (parameters l) /\ name = norm (lit "xhtml" :: f_sub g).
Proof.
  unfold archive. cbn [In]. split.
  - intros [H|[H|[H|H]]]; try discriminate H. apply in_map_iff in H as (f & E & H). injection E as <- <-. now split.
  - intros [H ->]. right. right. right. apply in_map_iff. now exists g.
Qed.
(** The first entry is the type of the archive, and then the fixed ones follow *)
Theorem C68_fixed l :
  firstn 3 (archive l) = [([lit "mimetype"], MimeType); ([lit "META-INF"; lit "container.xml"], Container);
                          ([lit "xhtml"; lit "content.opf"], Opf)].
Proof. reflexivity. Qed.
(** Each file that was given is in the archive, once, and nothing else is *)
Theorem C68_complete l f : In f l -> exists name g, In (name, Copy g) (archive l) /\ place g = place f.
Proof.
  intro H. destruct (params_place l f H) as (g & G & P). exists (norm (lit "xhtml" :: f_sub g)), g.
  split; [now apply archive_copy | exact P].
Qed.
Theorem C68_once l a n g b n' g' c :
  archive l = a ++ (n, Copy g) :: b ++ (n', Copy g') :: c -> place g <> place g'.
Proof.
  intros E P. unfold archive in E.
  pose proof (params_nodup l) as N.
  assert (M : map place (flat_map (fun x => match snd x with Copy f => [f] | _ => nil end) (archive l)) = map place (parameters l)).
  { unfold archive. cbn [flat_map snd app]. generalize (parameters l). intro q. f_equal. clear.
    induction q as [|f r IH]; [reflexivity|]. cbn [map flat_map snd app]. f_equal. exact IH. }
  rewrite <- M in N. unfold archive in N. rewrite E in N. clear - N P.
  rewrite flat_map_app in N. cbn [flat_map snd app] in N. rewrite flat_map_app in N. cbn [flat_map snd app] in N.
  rewrite map_app in N. cbn [map] in N. rewrite map_app in N. cbn [map] in N. apply NoDup_remove_2 in N. apply N.
  apply in_or_app. right. apply in_or_app. right. left. now symmetry.
Qed.
Theorem C68_only l name g : In (name, Copy g) (archive l) -> In g l.
Proof. intros [H _]%archive_copy. now apply params_in. Qed.
(** A file keeps its path, in the directory of the contents *)
Lemma xhtml_dots : lit "xhtml" <> lit "..". Proof. discriminate. Qed.
Theorem C68_name l name g :
  In (name, Copy g) (archive l) -> stays (f_sub g) -> name = walk [lit "xhtml"] (f_sub g).
Proof.
  intros [_ ->]%archive_copy S. rewrite (norm_stays _ _ S xhtml_dots).
  now rewrite (proj2 (proj2 (norm_walk _ S))).
Qed.

(** ** The list of contents *)
Lemma dict_list_map slug media suffix l :
  dict_list slug media suffix l
  = map (fun f => mkitem (if eqb (f_name f) (lit "toc.xhtml") then lit "toc" else slug (join (lit "/") (norm (f_sub f))))
                         (norm (f_sub f)) media (eqb (f_name f) (lit "toc.xhtml")))
        (filter (fun f => eqb (f_suffix f) suffix) l).
Proof.
  unfold dict_list. induction l as [|f l IH]; [reflexivity|]. cbn [flat_map filter].
  destruct (eqb (f_suffix f) suffix); cbn [app map]; now rewrite IH.
Qed.
Lemma file_eqb_refl f : file_eqb f f = true. Proof. apply eqb_refl. Qed.
Lemma same_name f g : f_sub f <> nil -> f_sub g <> nil -> file_eqb f g = true -> f_name f = f_name g.
Proof.
  unfold file_eqb, f_name. intros F G E%eqb_eq.
  destruct (exists_last F) as (a & n & Ea). destruct (exists_last G) as (b & m & Eb). rewrite Ea, Eb in E |- *.
  rewrite !app_assoc in E. apply app_inj_tail in E as [_ ->]. now rewrite !last_last.
Qed.
(** Titles are first, tables of contents second *)
Lemma ordered_spec l : (forall f, In f l -> f_sub f <> nil) ->
  ordered l = filter (fun f => eqb (f_name f) (lit "title.xhtml")) (first_occurrences place l)
           ++ filter (fun f => eqb (f_name f) (lit "toc.xhtml")) (first_occurrences place l)
           ++ filter (fun f => negb (eqb (f_name f) (lit "title.xhtml")) && negb (eqb (f_name f) (lit "toc.xhtml")))
                     (first_occurrences place l).
Proof.
  intro N. unfold ordered. rewrite <- app_assoc, <- params_first. f_equal. f_equal. apply filter_ext_in. intros f F.
  rewrite <- negb_orb. f_equal.
  destruct (existsb _ _) eqn:E; symmetry.
  - apply existsb_exists in E as (g & G & E).
    assert (G' : In g (parameters l) /\ (f_name g = lit "title.xhtml" \/ f_name g = lit "toc.xhtml")).
    { apply in_app_or in G as [G|G]; apply filter_In in G as [G G1]; apply eqb_eq in G1; auto. }
    destruct G' as [G' T].
    rewrite (same_name f g (N f (params_in _ _ F)) (N g (params_in _ _ G')) E).
    apply orb_true_iff. destruct T as [T|T]; rewrite T; [left | right]; apply eqb_refl.
  - apply orb_false_iff. split; apply not_true_is_false; intro H;
      (assert (X : existsb (file_eqb f) (filter (fun f : file => eqb (f_name f) (lit "title.xhtml")) (parameters l) ++
         filter (fun f : file => eqb (f_name f) (lit "toc.xhtml")) (parameters l)) = true);
       [|rewrite X in E; discriminate E]);
      apply existsb_exists; exists f; (split; [apply in_or_app | apply file_eqb_refl]);
      [left | right]; apply filter_In; now split.
Qed.
Lemma ordered_in l f : (forall f, In f l -> f_sub f <> nil) -> (In f (ordered l) <-> In f (parameters l)).
Proof.
  intro N. rewrite (ordered_spec l N), <- params_first. split.
  - intros [H|[H|H]%in_app_or]%in_app_or; apply filter_In in H; tauto.
  - intro H. apply in_or_app. destruct (eqb (f_name f) (lit "title.xhtml")) eqn:A; [left; apply filter_In; now split|].
    right. apply in_or_app. destruct (eqb (f_name f) (lit "toc.xhtml")) eqn:B; [left | right]; apply filter_In; (split; [exact H|]).
    + exact B.
    + now rewrite A, B.
Qed.
Lemma named_nonempty f : named f -> f_sub f <> nil.
Proof. intros (a & n & E & _). rewrite E. now destruct a. Qed.
Lemma ordered_in_l l f : In f (ordered l) -> In f (parameters l).
Proof.
  unfold ordered. intros [H|H]%in_app_or; [apply in_app_or in H as [H|H]|]; apply filter_In in H; tauto.
Qed.
Lemma walk_plain d q : ~ In (lit "..") q -> walk d q = d ++ q.
Proof.
  revert d. induction q as [|x q IH]; intros d N; [symmetry; apply app_nil_r|].
  unfold walk. cbn [fold_left]. destruct (eqb_spec x (lit "..")) as [->|Nx]; [exfalso; apply N; now left|].
  change (walk (d ++ [x]) q = d ++ x :: q). rewrite IH; [now rewrite <- app_assoc | intro I; apply N; now right].
Qed.
(** Each item of the list of contents leads to an entry of the archive, and says its format; the table of
    contents is the one that says so *)
Theorem C68_items slugify l i :
  (forall f, In f l -> stays (f_sub f)) -> In i (manifest slugify l) ->
  exists f, In (walk [lit "xhtml"] (i_href i), Copy f) (archive l)
            /\ media_of (f_suffix f) = Some (i_media i)
            /\ i_nav i = eqb (f_name f) (lit "toc.xhtml").
Proof.
  intros S H. unfold manifest in H. rewrite !dict_list_map, !in_app_iff, !in_map_iff in H.
  assert (G : forall m s, (exists f, mkitem (if eqb (f_name f) (lit "toc.xhtml") then lit "toc" else slugify (join (lit "/") (norm (f_sub f))))
       (norm (f_sub f)) m (eqb (f_name f) (lit "toc.xhtml")) = i /\ In f (filter (fun f => eqb (f_suffix f) s) (ordered l))) ->
       media_of s = Some m -> exists f, In (walk [lit "xhtml"] (i_href i), Copy f) (archive l)
            /\ media_of (f_suffix f) = Some (i_media i) /\ i_nav i = eqb (f_name f) (lit "toc.xhtml")).
  { intros m s (f & <- & F) M. apply filter_In in F as [F E]. apply eqb_eq in E. apply ordered_in_l in F.
    exists f. cbn [i_href i_media i_nav]. split; [|split; [now rewrite E | reflexivity]].
    apply archive_copy. split; [exact F|]. pose proof (S f (params_in _ _ F)) as Sf.
    rewrite (norm_stays _ _ Sf xhtml_dots). apply (walk_plain [lit "xhtml"]). apply (norm_walk _ Sf). }
  destruct H as [H|[H|H]]; eapply G; try exact H; reflexivity.
Qed.
(** Each entry of a format that is listed is in the list *)
Theorem C68_listed slugify l name f m :
  (forall f, In f l -> stays (f_sub f) /\ f_sub f <> nil) ->
  In (name, Copy f) (archive l) -> media_of (f_suffix f) = Some m ->
  exists i, In i (manifest slugify l) /\ walk [lit "xhtml"] (i_href i) = name /\ i_media i = m.
Proof.
  intros S [F ->]%archive_copy M.
  assert (O : In f (ordered l)) by (apply ordered_in; [intros g G; apply (S g G) | exact F]).
  pose proof (proj1 (S f (params_in _ _ F))) as Sf.
  exists (mkitem (if eqb (f_name f) (lit "toc.xhtml") then lit "toc" else slugify (join (lit "/") (norm (f_sub f))))
                 (norm (f_sub f)) m (eqb (f_name f) (lit "toc.xhtml"))).
  cbn [i_href i_media]. split; [|split; [|reflexivity]].
  - unfold manifest. rewrite !dict_list_map, !in_app_iff, !in_map_iff. unfold media_of in M.
    destruct (eqb (f_suffix f) (lit ".xhtml")) eqn:X.
    { left. exists f. injection M as <-. split; [reflexivity | now apply filter_In]. }
    destruct (eqb (f_suffix f) (lit ".css")) eqn:Y.
    { right. left. exists f. injection M as <-. split; [reflexivity | now apply filter_In]. }
    destruct (eqb (f_suffix f) (lit ".svg")) eqn:Z; [|discriminate M].
    right. right. exists f. injection M as <-. split; [reflexivity | now apply filter_In].
  - rewrite (norm_stays _ _ Sf xhtml_dots). apply (walk_plain [lit "xhtml"]). apply (norm_walk _ Sf).
Qed.

(** Images that are not drawings are not listed, although they are in the archive *)
Theorem C68_listed_refuted slugify :
  ~ (forall l f name, In (name, Copy f) (archive l) -> stays (f_sub f) ->
       exists i, In i (manifest slugify l) /\ walk [lit "xhtml"] (i_href i) = name).
Proof.
  intro H. destruct (H [mkfile [lit "p"] [lit "a.png"]] (mkfile [lit "p"] [lit "a.png"]) [lit "xhtml"; lit "a.png"]) as (i & [] & _).
  - apply archive_copy. split; [now left | reflexivity].
  - intros a b E. destruct a as [|x [|y a]]; [apply le_n | injection E as <- _; apply Nat.leb_le; reflexivity | destruct a; discriminate E].
Qed.

(** ** The order of reading *)
Theorem C68_reading slugify l :
  (forall f, In f l -> stays (f_sub f) /\ f_sub f <> nil) ->
  let xs := filter (fun f => eqb (f_suffix f) (lit ".xhtml")) (first_occurrences place l) in
  spine slugify l
  = map (fun f => slugify (sub_text f)) (filter (fun f => eqb (f_name f) (lit "title.xhtml")) xs)
 ++ map (fun _ => lit "toc") (filter (fun f => eqb (f_name f) (lit "toc.xhtml")) xs)
 ++ map (fun f => slugify (sub_text f))
        (filter (fun f => negb (eqb (f_name f) (lit "title.xhtml")) && negb (eqb (f_name f) (lit "toc.xhtml"))) xs).
Proof.
  intros S xs. unfold spine. rewrite dict_list_map, map_map. cbn [i_id].
  rewrite (ordered_spec l) by (intros f F; apply (S f F)). rewrite !filter_app, !map_app.
  assert (C : forall (p q : file -> bool) k, filter p (filter q k) = filter q (filter p k)).
  { intros p q k. induction k as [|x k IH]; [reflexivity|]. cbn [filter].
    destruct (p x) eqn:P, (q x) eqn:Q; cbn [filter]; rewrite ?P, ?Q; now rewrite ?IH. }
  assert (W : forall f, In f xs -> join (lit "/") (norm (f_sub f)) = sub_text f).
  { intros f F. unfold sub_text. apply filter_In in F as [F _]. rewrite <- params_first in F. apply params_in in F.
    now rewrite (proj2 (proj2 (norm_walk _ (proj1 (S f F))))). }
  rewrite !(C (fun f => eqb (f_suffix f) (lit ".xhtml"))). fold xs.
  f_equal; [|f_equal]; apply map_ext_in; intros f [F T]%filter_In.
  - apply eqb_eq in T. rewrite T. now rewrite (W f F).
  - now rewrite T.
  - apply andb_true_iff in T as [_ T]. apply negb_true_iff in T. rewrite T. now rewrite (W f F).
Qed.

(** ** Names *)
Lemma map_inj_nodup {A B} (g : A -> B) (k : list A) : NoDup k -> (forall x y, In x k -> In y k -> g x = g y -> x = y) -> NoDup (map g k).
Proof.
  induction k as [|x k IH]; intros N I; [constructor|]. inversion N as [|? ? N1 N2]; subst. cbn [map]. constructor.
  - intros (y & E & Y)%in_map_iff. apply N1. rewrite <- (I y x (or_intror Y) (or_introl eq_refl) E). exact Y.
  - apply IH; [exact N2|]. intros a b Ia Ib. apply I; now right.
Qed.
Lemma params_NoDup l : NoDup (parameters l).
Proof. eapply NoDup_map_inv. apply params_nodup. Qed.
Lemma params_inj l f g : In f (parameters l) -> In g (parameters l) -> place f = place g -> f = g.
Proof.
  intros F G E. pose proof (params_nodup l) as N. revert F G N. generalize (parameters l). intro k.
  induction k as [|x k IH]; intros F G N; [destruct F|]. cbn [map] in N. inversion N as [|? ? N1 N2]; subst.
  destruct F as [->|F], G as [->|G]; auto.
  - exfalso. apply N1. rewrite E. now apply in_map.
  - exfalso. apply N1. rewrite <- E. now apply in_map.
Qed.
Lemma tidy_place root l f : tidy root l -> In f (parameters l) -> place f = root ++ norm (f_sub f) /\ stays (f_sub f).
Proof.
  intros T F. destruct (T f (params_in _ _ F)) as (R & S & _). split; [|exact S].
  unfold place. rewrite R. now apply norm_walk.
Qed.
Lemma norm_last a n : n <> lit ".." -> norm (a ++ [n]) = norm a ++ [n].
Proof. intro N. rewrite norm_snoc. unfold nstep. rewrite (proj2 (eqb_neq _ _) N). reflexivity. Qed.
(** Files in one directory have entries of different names *)
Theorem C68_distinct_partial root l : tidy root l -> NoDup (map fst (archive l)).
Proof.
  intro T. unfold archive. cbn [map fst].
  assert (E : map fst (map (fun f => (norm (lit "xhtml" :: f_sub f), Copy f)) (parameters l))
              = map (fun f => lit "xhtml" :: norm (f_sub f)) (parameters l)).
  { rewrite map_map. apply map_ext_in. intros f F. cbn [fst].
    apply norm_stays; [apply (tidy_place root l f T F) | exact xhtml_dots]. }
  rewrite E. constructor; [|constructor; [|constructor]].
  - intros [H|[H|H]]; try discriminate H. apply in_map_iff in H as (f & H & _). discriminate H.
  - intros [H|H]; try discriminate H. apply in_map_iff in H as (f & H & _). discriminate H.
  - intros (f & H & F)%in_map_iff. destruct (T f (params_in _ _ F)) as (_ & _ & (a & n & Es & Nn) & X).
    unfold f_suffix, f_name in X. rewrite Es in H, X. rewrite last_last in X. rewrite (norm_last _ _ Nn) in H.
    injection H as H. destruct (norm a) as [|y [|z q]]; [|discriminate H|discriminate H].
    injection H as H. rewrite H in X. discriminate X.
  - apply map_inj_nodup; [apply params_NoDup|]. intros f g F G Efg. injection Efg as Efg.
    apply (params_inj l f g F G). rewrite (proj1 (tidy_place root l f T F)), (proj1 (tidy_place root l g T G)). now rewrite Efg.
Qed.
Lemma filter_disjoint {A} (p q : A -> bool) k x : (forall x, p x = true -> q x = false) -> In x (filter p k) -> ~ In x (filter q k).
Proof. intros D [_ P]%filter_In [_ Q]%filter_In. rewrite (D x P) in Q. discriminate Q. Qed.
Lemma ordered_NoDup l : (forall f, In f l -> f_sub f <> nil) -> NoDup (ordered l).
Proof.
  intro N. rewrite (ordered_spec l N), <- params_first. pose proof (params_NoDup l) as P.
  apply TargetBuilders.NoDup_app_intro; [now apply NoDup_filter | apply TargetBuilders.NoDup_app_intro; [now apply NoDup_filter | now apply NoDup_filter|]|].
  - intros x H. refine (filter_disjoint _ _ _ _ _ H). intros y E. rewrite E. apply andb_false_r.
  - intros x H [I|I]%in_app_or; revert I.
    + refine (filter_disjoint _ _ _ _ _ H). intros y E. apply eqb_eq in E. now rewrite E.
    + refine (filter_disjoint _ _ _ _ _ H). intros y E. now rewrite E.
Qed.
(** ... and of different ids, if only one is called toc.xhtml and their slugs are different *)
Theorem C68_ids_partial root slugify l :
  tidy root l ->
  (forall f g, In f l -> In g l -> slugify (sub_text f) = slugify (sub_text g) -> place f = place g) ->
  (forall f g, In f l -> In g l -> f_name f = lit "toc.xhtml" -> f_name g = lit "toc.xhtml" -> place f = place g) ->
  (forall f, In f l -> slugify (sub_text f) <> lit "toc") ->
  NoDup (map i_id (manifest slugify l)).
Proof.
  intros T I1 I2 I3. unfold manifest. rewrite !dict_list_map, !map_app, !map_map. cbn [i_id].
  rewrite <- !map_app.
  assert (N : forall f, In f l -> f_sub f <> nil) by (intros f F; apply named_nonempty; apply (T f F)).
  assert (L : forall f s, In f (filter (fun f => eqb (f_suffix f) s) (ordered l)) -> In f (parameters l))
    by (intros f s [F _]%filter_In; now apply ordered_in_l).
  pose proof (ordered_NoDup l N) as O.
  apply map_inj_nodup.
  - apply TargetBuilders.NoDup_app_intro; [now apply NoDup_filter | apply TargetBuilders.NoDup_app_intro; [now apply NoDup_filter | now apply NoDup_filter|]|].
    + intros x H. refine (filter_disjoint _ _ _ _ _ H). intros y E. apply eqb_eq in E. now rewrite E.
    + intros x H [J|J]%in_app_or; revert J; refine (filter_disjoint _ _ _ _ _ H); intros y E; apply eqb_eq in E; now rewrite E.
  - intros f g F G E. rewrite !in_app_iff in F, G.
    assert (F' : In f (parameters l)) by (destruct F as [F|[F|F]]; exact (L _ _ F)).
    assert (G' : In g (parameters l)) by (destruct G as [G|[G|G]]; exact (L _ _ G)).
    apply (params_inj l f g F' G').
    assert (W : forall f, In f (parameters l) -> join (lit "/") (norm (f_sub f)) = sub_text f).
    { intros h H. unfold sub_text. now rewrite (proj2 (proj2 (norm_walk _ (proj2 (tidy_place root l h T H))))). }
    rewrite (W f F'), (W g G') in E. apply params_in in F', G'.
    destruct (eqb_spec (f_name f) (lit "toc.xhtml")) as [A|A], (eqb_spec (f_name g) (lit "toc.xhtml")) as [B|B].
    + now apply I2.
    + exfalso. now apply (I3 g G').
    + exfalso. now apply (I3 f F').
    + now apply I1.
Qed.
(** Two tables of contents in different directories have the same id, whatever the slugs *)
Theorem C68_ids_refuted : ~ (forall root slugify l, tidy root l -> NoDup (map i_id (manifest slugify l))).
Proof.
  intro H. specialize (H [lit "p"] (fun x => x) [mkfile [lit "p"] [lit "toc.xhtml"]; mkfile [lit "p"] [lit "b"; lit "toc.xhtml"]]).
  assert (E : map i_id (manifest (fun x => x) [mkfile [lit "p"] [lit "toc.xhtml"]; mkfile [lit "p"] [lit "b"; lit "toc.xhtml"]])
              = [lit "toc"; lit "toc"]) by reflexivity.
  rewrite E in H.
  assert (K : NoDup [lit "toc"; lit "toc"]); [|inversion K as [|? ? K1 _]; apply K1; now left].
  apply H. intros f [<-|[<-|[]]]; (split; [reflexivity|]; split; [|split; [|reflexivity]]).
  - intros a b. cbn [f_sub]. intro F. destruct a as [|x [|y a]]; [apply le_n | injection F as <- _; apply Nat.leb_le; reflexivity | destruct a; discriminate F].
  - exists nil, (lit "toc.xhtml"). split; [reflexivity | discriminate].
  - intros a b. cbn [f_sub]. intro F. destruct a as [|x [|y [|z a]]]; [apply le_n | injection F as <- _; apply Nat.leb_le; reflexivity
      | injection F as <- <- _; apply Nat.leb_le; reflexivity | destruct a; discriminate F].
  - exists [lit "b"], (lit "toc.xhtml"). split; [reflexivity | discriminate].
Qed.

(** ** The table of contents *)
Lemma uniq_files_in seen l f : In f (uniq_files seen l) -> In f l.
Proof.
  revert seen. induction l as [|g l IH]; intros seen H; [exact H|]. cbn [uniq_files] in H.
  destruct (existsb (file_eqb g) seen); [right; now apply (IH seen)|].
  destruct H as [H|H]; [now left | right; now apply (IH (g :: seen))].
Qed.
(** The files that the builder of an epub gives always have a table of contents *)
Theorem C68_toc cache docs deps : check_toc (epub_parameters cache docs deps) = Ok tt.
Proof.
  unfold check_toc, epub_parameters. cbn [has_toc_xhtml].
  set (l := xhtml_filepaths docs deps ++ _).
  destruct (params_place l (mkfile (cache ++ [lit "xhtml"]) [lit "toc.xhtml"])) as (g & G & P); [apply in_or_app; right; now left|].
  assert (X : existsb (fun f => eqb (f_name f) (lit "toc.xhtml")) (parameters l) = true); [|now rewrite X].
  apply existsb_exists. exists g. split; [exact G|]. apply eqb_eq.
  assert (A : mem (f_suffix g) allowed = true).
  { apply params_in, in_app_or in G as [G|[<-|[]]]; [|reflexivity]. unfold xhtml_filepaths in G. apply uniq_files_in in G.
    now apply filter_In in G. }
  unfold place in P. cbn [f_root f_sub] in P. unfold f_name. unfold f_suffix, f_name in A.
  destruct (f_sub g) as [|y q] eqn:Q; [discriminate A|].
  assert (NE : y :: q <> nil) by discriminate. destruct (exists_last NE) as (a & n & En). rewrite En in *.
  rewrite last_last in *. unfold walk in P. rewrite !fold_left_app in P. cbn [fold_left] in P.
  destruct (eqb_spec n (lit "..")) as [->|Nn]; [discriminate A|].
  change (eqb (lit "toc.xhtml") (lit "..")) with false in P. cbv iota in P. now apply app_inj_tail in P.
Qed.
(** ... but it is always the generated one: a project that has its own table of contents gets another, and
    the two have the same name in the archive *)
Theorem C68_distinct_refuted :
  ~ (forall cache docs deps, tidy [lit "p"; lit "xhtml"] (docs ++ deps) ->
       NoDup (map fst (archive (epub_parameters cache docs deps)))).
Proof.
  intro H. specialize (H [lit "c"] [mkfile [lit "p"; lit "xhtml"] [lit "toc.xhtml"]] nil).
  assert (E : map fst (archive (epub_parameters [lit "c"] [mkfile [lit "p"; lit "xhtml"] [lit "toc.xhtml"]] nil))
              = [[lit "mimetype"]; [lit "META-INF"; lit "container.xml"]; [lit "xhtml"; lit "content.opf"];
                 [lit "xhtml"; lit "toc.xhtml"]; [lit "xhtml"; lit "toc.xhtml"]]) by (vm_compute; reflexivity).
  rewrite E in H.
  assert (N : forall a b c d : list str, ~ NoDup [a; b; c; d; d]).
  { intros a b c d N. do 3 (inversion N as [|? ? _ N']; subst; clear N; rename N' into N).
    inversion N as [|? ? N1 _]. apply N1. now left. }
  apply (N _ _ _ _ (H ltac:(idtac; intros f [<-|[]]; split; [reflexivity|]; split; [|split; [|reflexivity]];
    [intros a b F; cbn [f_sub] in F; destruct a as [|x [|y a]];
      [apply le_n | injection F as <- _; apply Nat.leb_le; reflexivity | destruct a; discriminate F]
    | exists nil, (lit "toc.xhtml"); split; [reflexivity | discriminate]]))).
Qed.
(** Every file of a format for epubs, of the documents and of what they depend on, is in the archive *)
Lemma uniq_files_all seen l f : In f l -> (exists g, In g (seen ++ uniq_files seen l) /\ file_eqb f g = true).
Proof.
  revert seen. induction l as [|h l IH]; intros seen; [intros []|]. cbn [uniq_files].
  destruct (existsb (file_eqb h) seen) eqn:E; intros [->|H].
  - apply existsb_exists in E as (g & G & E). exists g. split; [apply in_or_app; now left | exact E].
  - now apply IH.
  - exists f. split; [apply in_or_app; right; now left | apply file_eqb_refl].
  - destruct (IH (h :: seen) H) as (g & G & E2). exists g. split; [|exact E2].
    apply in_app_or in G as [[->|G]|G]; apply in_or_app; [right; now left | now left | right; now right].
Qed.
Theorem C68_all cache docs deps f :
  (forall f, In f (docs ++ deps) -> ~ In (lit "..") (f_root f)) ->
  In f (docs ++ deps) -> In (f_suffix f) [lit ".css"; lit ".svg"; lit ".png"; lit ".xhtml"] ->
  exists name g, In (name, Copy g) (archive (epub_parameters cache docs deps)) /\ place g = place f.
Proof.
  intros R F A. unfold epub_parameters. cbn [has_toc_xhtml].
  destruct (uniq_files_all nil (filter (fun f => mem (f_suffix f) allowed) (docs ++ deps)) f) as (g & G & E).
  { apply filter_In. split; [exact F|]. now apply mem_In. }
  cbn [app] in G. assert (P : place g = place f).
  { apply uniq_files_in, filter_In in G as [G _]. apply eqb_eq in E. unfold place.
    rewrite <- (app_nil_l (f_root g)), <- (app_nil_l (f_root f)), <- (walk_plain nil _ (R g G)), <- (walk_plain nil _ (R f F)).
    unfold walk. rewrite <- !fold_left_app. now rewrite E. }
  destruct (C68_complete (xhtml_filepaths docs deps ++ [mkfile (cache ++ [lit "xhtml"]) [lit "toc.xhtml"]]) g) as (name & h & H & Q).
  { apply in_or_app. now left. }
  exists name, h. split; [exact H | now rewrite Q].
Qed.

(** ** A book: two documents, a style, a picture in another directory twice *)
Example C68_ex :
  let x := [lit "p"; lit "xhtml"] in
  let l := epub_parameters [lit "c"] [mkfile x [lit "b.xhtml"]; mkfile x [lit "s"; lit "title.xhtml"]]
             [mkfile x [lit "s"; lit ".."; lit "m.css"]; mkfile x [lit "m.css"]; mkfile x [lit "d.svg"]; mkfile x [lit "n.tex"]] in
  map fst (archive l) = [[lit "mimetype"]; [lit "META-INF"; lit "container.xml"]; [lit "xhtml"; lit "content.opf"];
    [lit "xhtml"; lit "b.xhtml"]; [lit "xhtml"; lit "s"; lit "title.xhtml"]; [lit "xhtml"; lit "m.css"]; [lit "xhtml"; lit "d.svg"];
    [lit "xhtml"; lit "toc.xhtml"]]
  /\ spine (fun t => t) l = [lit "s/title.xhtml"; lit "toc"; lit "b.xhtml"]
  /\ map (fun i => (i_href i, i_media i)) (manifest (fun t => t) l)
     = [([lit "s"; lit "title.xhtml"], lit "application/xhtml+xml"); ([lit "toc.xhtml"], lit "application/xhtml+xml");
        ([lit "b.xhtml"], lit "application/xhtml+xml"); ([lit "m.css"], lit "text/css"); ([lit "d.svg"], lit "image/svg+xml")].
Proof. vm_compute. repeat split. Qed.

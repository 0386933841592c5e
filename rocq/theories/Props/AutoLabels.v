(** C64: titles and automatic labels *)
From Coq Require Import String List Bool Arith NArith Lia.
From Verif.Base Require Import Str StrFacts Dict DictFacts PyText PyTextFacts Result.
From Verif.Model Require Import Labels AutoLabels.
From Verif.Spec Require Import Labels AutoLabels.
From Verif.Proof Require Import Labels.
From Verif.Props Require Labels Ref.
Import ListNotations.

(** ** Titles *)

Lemma split_s_first sep x : sep <> nil -> exists w ws, split_s sep x = w :: ws /\ ~ occurs sep w /\ ((ws = nil /\ x = w) \/ exists r, x = w ++ sep ++ r).
Proof.
  intros Hs. unfold split_s. induction x as [|c x IH].
  - exists nil, nil. split; [reflexivity|]. split; [|left; auto]. intros (a & b & E). symmetry in E. apply app_eq_nil in E as [_ E]. apply app_eq_nil in E as [E _]. contradiction.
  - cbn [split_from]. destruct (startswith (c :: x) sep) eqn:Es.
    + exists nil. eexists. split; [reflexivity|]. split.
      * intros (a & b & E). symmetry in E. apply app_eq_nil in E as [_ E]. apply app_eq_nil in E as [E _]. contradiction.
      * right. apply startswith_iff in Es as [r E]. exists r. exact E.
    + destruct IH as (w & ws & E & Ho & Hx). rewrite E. exists (c :: w), ws. split; [reflexivity|]. split.
      * intros (a & b & Eo). destruct a as [|a0 a].
        -- assert (C : startswith (c :: x) sep = true); [|congruence]. apply startswith_iff. cbn [app] in Eo.
           destruct Hx as [[_ ->]|[r ->]]; [exists b; exact Eo|]. exists (b ++ sep ++ r). rewrite app_comm_cons, Eo, <- app_assoc. reflexivity.
        -- injection Eo as <- Eo. apply Ho. exists a, b. exact Eo.
      * destruct Hx as [[-> ->]|[r ->]]; [left; auto|right; exists r; reflexivity].
Qed.

Lemma visible_app a b : visible (a ++ b) = visible a ++ visible b.
Proof. unfold visible. apply filter_app. Qed.
Lemma visible_join c l : c = 32%N \/ c = 10%N -> visible (join [c] l) = concat (map visible l).
Proof.
  intros Hc. induction l as [|x l IH]; [reflexivity|]. destruct l as [|y l]; [cbn [join map concat]; now rewrite app_nil_r|].
  rewrite join_cons by discriminate. rewrite !visible_app, IH. replace (visible [c]) with (@nil N) by (destruct Hc as [->| ->]; reflexivity). reflexivity.
Qed.
Lemma concat_visible_filter l : concat (map visible (filter nonempty l)) = concat (map visible l).
Proof. induction l as [|x l IH]; [reflexivity|]. cbn [filter map concat]. destruct x as [|c x]; [exact IH|]. cbn [nonempty]. change (nonempty (c :: x)) with true. cbn [map concat]. now rewrite IH. Qed.
Lemma visible_split c s : c = 32%N \/ c = 10%N -> concat (map visible (split_c c s)) = visible s.
Proof. intros Hc. rewrite <- (visible_join c) by exact Hc. now rewrite join_split_c. Qed.

(** the parts of the computation *)
Lemma title_parts s : exists text sentence ws ds1 ds2,
  text = join (lit " ") (filter nonempty (split_c 10%N s)) /\
  (text = sentence \/ exists r, text = sentence ++ lit ". " ++ r) /\ ~ occurs (lit ". ") sentence /\
  ws = filter nonempty (split_c 32%N sentence) /\
  join (lit " ") ws = ds1 ++ titlelize s ++ ds2 /\ dots ds1 /\ dots ds2 /\
  (forall c r, titlelize s = c :: r -> c <> 46%N) /\ (forall c r, titlelize s = r ++ [c] -> c <> 46%N).
Proof.
  unfold titlelize. set (text := join (lit " ") _). destruct (split_s_first (lit ". ") text ltac:(discriminate)) as (w & ws & E & Ho & Hx). rewrite E. cbn [hd].
  set (l := filter nonempty (split_c 32%N w)). destruct (strip_p_decomp (N.eqb 46) (join (lit " ") l)) as (p & q & E1 & Hp & Hq & [S1 S2]).
  change (strip_c 46%N (join (lit " ") l)) with (strip_p (N.eqb 46) (join (lit " ") l)).
  exists text, w, l, p, q. split; [reflexivity|]. split; [destruct Hx as [[_ H]|[r H]]; [now left|right; exists r; exact H]|]. split; [exact Ho|]. split; [reflexivity|]. split; [exact E1|].
  split; [|split; [|split]].
  - intros c Hc. apply (proj1 (forallb_forall _ _) Hp) in Hc. apply N.eqb_eq in Hc. now symmetry.
  - intros c Hc. apply (proj1 (forallb_forall _ _) Hq) in Hc. apply N.eqb_eq in Hc. now symmetry.
  - intros c r Er. specialize (S1 c r Er). apply N.eqb_neq in S1. congruence.
  - intros c r Er. specialize (S2 c r Er). apply N.eqb_neq in S2. congruence.
Qed.

Lemma dots_visible d : dots d -> visible d = d.
Proof. induction d as [|c d IH]; intros H; [reflexivity|]. cbn [visible filter]. rewrite (H c (or_introl eq_refl)). cbn. f_equal. apply IH. intros x Hx. apply H. now right. Qed.

(** an end of a sentence in the joined lines is one in the text *)
Lemma occ_cut (d c : char) : d <> c -> forall a b x J, a ++ d :: c :: b = x ++ c :: J ->
  (exists b', x = a ++ d :: c :: b') \/ x = a ++ [d] \/ (exists a', a = x ++ c :: a' /\ J = a' ++ d :: c :: b).
Proof.
  intros Hd a b x. revert a. induction x as [|x0 x IH]; intros a J E.
  - destruct a as [|a0 a]; [injection E as E _; contradiction|]. injection E as -> E. right. right. exists a. split; [reflexivity|now symmetry].
  - destruct a as [|a0 a].
    + injection E as <- E. destruct x as [|x1 x]; [right; left; reflexivity|]. injection E as <- E. left. exists x. reflexivity.
    + injection E as <- E. destruct (IH a J E) as [[b' ->]|[->|(a' & -> & ->)]]; [left; exists b'; reflexivity|right; left; reflexivity|right; right; exists a'; split; reflexivity].
Qed.
Lemma occurs_join (d c : char) (l : list str) : d <> c -> (forall w, In w l -> ~ occurs [d; c] w) -> occurs [d; c] (join [c] l) ->
  exists a w b, l = a ++ (w ++ [d]) :: b /\ b <> nil.
Proof.
  intros Hd. induction l as [|x l IH]; intros Hw (a & b & E).
  - destruct a; discriminate E.
  - destruct l as [|y l]; [exfalso; apply (Hw x); [now left|exists a, b; exact E]|]. rewrite join_cons in E by discriminate. cbn [app] in E. symmetry in E.
    destruct (occ_cut d c Hd _ _ _ _ E) as [[b' Hx]|[Hx|(a' & Ha & HJ)]].
    + exfalso. apply (Hw x); [now left|]. exists a, b'. exact Hx.
    + exists nil, a, (y :: l). split; [now rewrite Hx|discriminate].
    + destruct IH as (a2 & w & b2 & E2 & N2); [intros w Hi; apply Hw; now right|exists a', b; exact HJ|]. exists (x :: a2), w, b2. split; [now rewrite E2|exact N2].
Qed.
Lemma filter_mid {A} (f : A -> bool) l : forall a w b, filter f l = a ++ w :: b -> b <> nil -> exists a' b', l = a' ++ w :: b' /\ b' <> nil.
Proof.
  induction l as [|x l IH]; intros a w b E N; [destruct a; discriminate E|]. cbn [filter] in E. destruct (f x).
  - destruct a as [|a0 a].
    + injection E as -> E. exists nil, l. split; [reflexivity|]. intros ->. cbn in E. congruence.
    + injection E as -> E. destruct (IH _ _ _ E N) as (a' & b' & -> & N'). exists (a0 :: a'), b'. auto.
  - destruct (IH _ _ _ E N) as (a' & b' & -> & N'). exists (x :: a'), b'. auto.
Qed.
Lemma join_mid (c : char) a w b : b <> nil -> exists p r, join [c] (a ++ w :: b) = p ++ w ++ c :: r.
Proof.
  intros N. induction a as [|x a IH].
  - exists nil, (join [c] b). cbn [app]. rewrite join_cons by exact N. reflexivity.
  - cbn [app]. rewrite join_cons by (destruct a; discriminate). destruct IH as (p & r & ->). exists (x ++ c :: p), r. rewrite <- !app_assoc. reflexivity.
Qed.
Lemma join_has (c : char) w l : In w l -> exists p r, join [c] l = p ++ w ++ r.
Proof.
  intros H. apply in_split in H as (a & b & ->). destruct b as [|y b].
  - induction a as [|x a IH]; [exists nil, nil; cbn; now rewrite app_nil_r|]. cbn [app]. rewrite join_cons by (destruct a; discriminate). destruct IH as (p & r & ->).
    exists (x ++ c :: p), r. rewrite <- !app_assoc. reflexivity.
  - destruct (join_mid c a w (y :: b) ltac:(discriminate)) as (p & r & ->). exists p, (c :: r). reflexivity.
Qed.
Lemma occurs_in p a m b : occurs p m -> occurs p (a ++ m ++ b).
Proof. intros (x & y & ->). exists (a ++ x), (y ++ b). now rewrite <- !app_assoc. Qed.
Lemma text_ends s : ~ occurs (lit ". ") s -> ~ occurs [46%N; 10%N] s -> ~ occurs (lit ". ") (join (lit " ") (filter nonempty (split_c 10%N s))).
Proof.
  intros H1 H2 Ho. apply (occurs_join 46 32) in Ho; [|discriminate|].
  - destruct Ho as (a & w & b & E & N). destruct (filter_mid _ _ _ _ _ E N) as (a' & b' & E' & N'). apply H2.
    rewrite <- (join_split_c 10%N s), E'. destruct (join_mid 10%N a' (w ++ [46%N]) b' N') as (p & r & ->).
    exists (p ++ w), r. rewrite <- !app_assoc. reflexivity.
  - intros w Hw Ow. apply filter_In in Hw as [Hw _]. apply H1. rewrite <- (join_split_c 10%N s). destruct (join_has 10%N _ _ Hw) as (p & r & ->). now apply occurs_in.
Qed.

(** The visible characters of a title are those of the text, but for periods at the beginning, up to the
    end of the first sentence. *)
Theorem C64_title : forall s, exists a b,
  visible s = a ++ visible (titlelize s) ++ b /\ dots a /\
  (~ occurs (lit ". ") s -> ~ occurs [46%N; 10%N] s -> dots b).
Proof.
  intros s. destruct (title_parts s) as (text & sen & ws & p & q & Et & Hx & Ho & Ew & Ej & Hp & Hq & _ & _).
  assert (Vt : visible text = visible s) by (rewrite Et, (visible_join 32) by auto; rewrite concat_visible_filter; apply visible_split; auto).
  assert (Vs : visible sen = p ++ visible (titlelize s) ++ q).
  { rewrite <- (dots_visible p Hp), <- (dots_visible q Hq), <- !visible_app, <- Ej, (visible_join 32), Ew, concat_visible_filter by auto. symmetry. apply visible_split. auto. }
  exists p. destruct Hx as [Hx|[r Hx]].
  - exists q. split; [congruence|]. split; [exact Hp|]. intros _ _. exact Hq.
  - exists (q ++ visible (lit ". " ++ r)). split; [rewrite <- Vt, Hx, visible_app, Vs, <- !app_assoc; reflexivity|]. split; [exact Hp|].
    intros H1 H2. exfalso. apply (text_ends s H1 H2). rewrite <- Et. exists sen, r. exact Hx.
Qed.

Lemma words_of sen : words (filter nonempty (split_c 32%N sen)) \/ In 10%N sen.
Proof.
  destruct (in_dec N.eq_dec 10%N sen) as [H|H]; [now right|]. left. intros w Hw. apply filter_In in Hw as [Hw Hn]. split; [intros ->; discriminate Hn|].
  split; [now apply (split_c_no_sep 32%N sen)|]. intros Hi. apply H. rewrite <- (join_split_c 32%N sen). destruct (join_has 32%N _ _ Hw) as (p & r & ->). apply in_or_app. right. apply in_or_app. now left.
Qed.
Lemma occurs_sub p a m b : ~ occurs p (a ++ m ++ b) -> ~ occurs p m.
Proof. intros H Ho. apply H. now apply occurs_in. Qed.
Lemma no_newline s : ~ In 10%N (join (lit " ") (filter nonempty (split_c 10%N s))).
Proof.
  intros H. apply Props.Ref.join_In in H as [H|(x & Hx & Hc)]; [vm_compute in H; intuition discriminate|]. apply filter_In in Hx as [Hx _]. exact (split_c_no_sep 10%N s x Hx Hc).
Qed.
Lemma cut_first (c : char) : forall a r x J, ~ In c x -> a ++ c :: r = x ++ c :: J -> (a = x /\ r = J) \/ exists a', a = x ++ c :: a' /\ J = a' ++ c :: r.
Proof.
  intros a r x. revert a. induction x as [|x0 x IH]; intros a J Hx E.
  - destruct a as [|a0 a]; [injection E as ->; now left|]. injection E as -> E. right. exists a. split; [reflexivity|now symmetry].
  - destruct a as [|a0 a]; [injection E as -> E; exfalso; apply Hx; now left|]. injection E as <- E.
    destruct (IH a J) as [[-> ->]|(a' & -> & ->)]; [intros H; apply Hx; now right|exact E|now left|right; exists a'; auto].
Qed.
Lemma occurs_double (c : char) (l : list str) : (forall w, In w l -> w <> nil /\ ~ In c w) -> ~ occurs [c; c] (join [c] l).
Proof.
  induction l as [|x l IH]; intros Hw (a & b & E); [destruct a; discriminate E|]. destruct (Hw x (or_introl eq_refl)) as [Nx Hx]. destruct l as [|y l].
  - apply Hx. cbn in E. rewrite E. apply in_or_app. right. now left.
  - rewrite join_cons in E by discriminate. cbn [app] in E. symmetry in E. apply cut_first in E; [|exact Hx]. destruct E as [[_ E]|(a' & _ & E)].
    + destruct (Hw y) as [Ny Hy]; [right; now left|]. destruct y as [|y0 y]; [contradiction|].
      assert (y0 = c); [|subst; apply Hy; now left]. destruct l; [cbn in E; congruence|]. rewrite join_cons in E by discriminate. cbn in E. congruence.
    + apply IH; [intros w Hi; apply Hw; now right|]. exists a', b. exact E.
Qed.
Lemma occurs_end (l : list str) sen : l = filter nonempty (split_c 32%N sen) -> ~ occurs (lit ". ") sen -> ~ occurs (lit ". ") (join (lit " ") l).
Proof.
  intros -> H Ho. apply (occurs_join 46 32) in Ho; [|discriminate|].
  - destruct Ho as (a & w & b & E & N). destruct (filter_mid _ _ _ _ _ E N) as (a' & b' & E' & N'). apply H.
    rewrite <- (join_split_c 32%N sen), E'. destruct (join_mid 32%N a' (w ++ [46%N]) b' N') as (p & r & ->).
    exists (p ++ w), r. rewrite <- !app_assoc. reflexivity.
  - intros w Hw (a & b & E). apply filter_In in Hw as [Hw _]. apply (split_c_no_sep 32%N sen w Hw). rewrite E. apply in_or_app. right. right. now left.
Qed.

(** A title is one line of words with single spaces between them, without a space before it, without
    periods around it and without the end of a sentence in it. *)
Theorem C64_title_clean : forall s,
  ~ In 10%N (titlelize s) /\ ~ occurs (lit "  ") (titlelize s) /\ ~ occurs (lit ". ") (titlelize s) /\
  (forall c r, titlelize s = c :: r -> c <> 46%N /\ c <> 32%N) /\ (forall c r, titlelize s = r ++ [c] -> c <> 46%N).
Proof.
  intros s. destruct (title_parts s) as (text & sen & ws & p & q & Et & Hx & Ho & Ew & Ej & Hp & Hq & D1 & D2).
  assert (Nn : ~ In 10%N sen). { intros H. apply (no_newline s). rewrite <- Et. destruct Hx as [->|[r ->]]; [exact H|]. apply in_or_app. now left. }
  destruct (words_of sen) as [W|W]; [|contradiction]. rewrite <- Ew in W.
  assert (Hd : ~ occurs (lit "  ") (join (lit " ") ws)) by (apply (occurs_double 32); intros w Hw; destruct (W w Hw) as (? & ? & _); auto).
  assert (He : ~ occurs (lit ". ") (join (lit " ") ws)) by (apply (occurs_end ws sen Ew Ho)).
  split. { intros H. assert (Hj : In 10%N (join (lit " ") ws)) by (rewrite Ej; apply in_or_app; right; apply in_or_app; now left).
    apply Props.Ref.join_In in Hj as [Hj|(w & Hw & Hc)]; [vm_compute in Hj; intuition discriminate|]. destruct (W w Hw) as (_ & _ & Nw). contradiction. }
  rewrite Ej in Hd, He. split; [apply occurs_sub in Hd; exact Hd|]. split; [apply occurs_sub in He; exact He|]. split; [|exact D2].
  intros c r E. split; [now apply (D1 c r)|]. intros ->. rewrite E in *. destruct (exists_last (l := p)) as (p' & d & Ep).
  - intros ->. cbn [app] in Ej. destruct ws as [|w ws]; [discriminate Ej|]. destruct (W w (or_introl eq_refl)) as (Nw & Sw & _). destruct w as [|w0 w]; [contradiction|].
    assert (w0 = 32%N); [|subst; apply Sw; now left]. destruct ws; [cbn in Ej; congruence|]. rewrite join_cons in Ej by discriminate. cbn in Ej. congruence.
  - subst p. rewrite (Hp d) in He by (apply in_or_app; right; now left). apply He. exists p', (r ++ q). rewrite <- !app_assoc. reflexivity.
Qed.

(** A text that is such a title is its own title. *)
Theorem C64_title_same : forall ws,
  words ws -> (forall c r, join (lit " ") ws = c :: r -> c <> 46%N) -> (forall c r, join (lit " ") ws = r ++ [c] -> c <> 46%N) ->
  ~ occurs (lit ". ") (join (lit " ") ws) -> titlelize (join (lit " ") ws) = join (lit " ") ws.
Proof.
  intros ws W D1 D2 He. destruct ws as [|w0 ws0]; [reflexivity|]. set (ws := w0 :: ws0) in *.
  assert (Nf : forall l, (forall w, In w l -> w <> nil) -> filter nonempty l = l).
  { induction l as [|x l IH]; intros H; [reflexivity|]. cbn [filter]. destruct x as [|c x]; [exfalso; apply (H nil); [now left|reflexivity]|]. change (nonempty (c :: x)) with true. cbn. f_equal. apply IH. intros w Hw. apply H. now right. }
  assert (Jn : join (lit " ") ws <> nil). { destruct (W w0 (or_introl eq_refl)) as (N0 & _). unfold ws. destruct ws0; [exact N0|]. rewrite join_cons by discriminate. intros E. apply app_eq_nil in E as [E _]. contradiction. }
  assert (Nl : ~ In 10%N (join (lit " ") ws)). { intros H. apply Props.Ref.join_In in H as [H|(w & Hw & Hc)]; [vm_compute in H; intuition discriminate|]. destruct (W w Hw) as (_ & _ & N). contradiction. }
  unfold titlelize. rewrite (split_c_fresh 10%N (join (lit " ") ws)) by exact Nl. rewrite (Nf [join (lit " ") ws]) by (intros w [<-|[]]; exact Jn). cbn [join].
  rewrite split_s_none by (destruct (contains (join (lit " ") ws) (lit ". ")) eqn:C; [exfalso; apply He; apply contains_iff in C; destruct C as (a & b & C); exists a, b; exact C|reflexivity]). cbn [hd].
  change (lit " ") with [32%N] at 1 2. rewrite (split_c_join 32%N ws) by (try discriminate; intros w Hw; apply W; exact Hw). rewrite Nf by (intros w Hw; apply W; exact Hw).
  unfold strip_c. apply strip_p_id. split; intros c r E; apply N.eqb_neq; intros <-; [exact (D1 _ _ E eq_refl)|exact (D2 _ _ E eq_refl)].
Qed.
(** Finding: a title may end with a space. *)
Theorem C64_title_space_refuted : ~ (forall s c r, titlelize s = r ++ [c] -> c <> 32%N).
Proof. intros H. apply (H (lit "To be continued ...") 32%N (lit "To be continued")); reflexivity. Qed.

(** ** Adding the labels of a document *)
Definition view (l : label) := (l_doc l, l_id l, l_kind l).
Lemma add_one h sep doc i kind : sep_of sep <> nil -> names_label (sep_of sep) i ->
  let h' := h ++ [OAdd i (Some kind) true sep (Some doc)] in
  ((exists x, In x (values (m_labels (run h))) /\ l_doc x = doc /\ l_id x = i) /\
   forall r, add_labels sep doc ((i, kind) :: r) (run h) = Raise DuplicateLabel) \/
  ((forall r, add_labels sep doc ((i, kind) :: r) (run h) = add_labels sep doc r (run h')) /\
   map view (values (m_labels (run h'))) = map view (values (m_labels (run h))) ++ [(doc, i, Some kind)]).
Proof.
  intros Hs Hn h'. destruct (Props.Labels.C13_duplicate_refused h i (Some kind) true sep (Some doc) doc i Hs) as (E1 & _ & E2); [right; auto|].
  assert (Er : run h' = snd (add_label i (Some kind) true sep (Some doc) (run h))) by (unfold h', run; rewrite fold_left_app; reflexivity).
  cbv zeta in *. cbn [add_labels]. destruct (add_label i (Some kind) true sep (Some doc) (run h)) as [res m] eqn:E. cbn [fst snd] in *.
  destruct res as [l|ex].
  - right. destruct E2 as (x & _ & Ed & Ei & Ek & _ & Ev); [discriminate|]. split; [intros r; now rewrite Er|]. rewrite Er, Ev, map_app. cbn [map]. unfold view at 2. now rewrite Ed, Ei, Ek.
  - left. assert (Ed : Raise ex = @Raise label DuplicateLabel); [|split; [apply E1; exact Ed|intros r; cbn [bind]; injection Ed as ->; reflexivity]].
    destruct ex; try reflexivity; destruct E2 as (x & C & _); try discriminate; discriminate C.
Qed.
Lemma add_labels_ok sep doc : sep_of sep <> nil -> forall ids h, (forall i k, In (i, k) ids -> names_label (sep_of sep) i) -> NoDup (map fst ids) ->
  (forall x, In x (values (m_labels (run h))) -> l_doc x = doc -> ~ In (l_id x) (map fst ids)) ->
  exists h', add_labels sep doc ids (run h) = Ok (run h') /\
    map view (values (m_labels (run h'))) = map view (values (m_labels (run h))) ++ map (fun ik => (doc, fst ik, Some (snd ik))) ids.
Proof.
  intros Hs. induction ids as [|[i k] ids IH]; intros h Hn Nd Hf; [exists h; split; [reflexivity|cbn; now rewrite app_nil_r]|].
  cbn [map] in Nd. inversion Nd as [|? ? Ni Nd']; subst.
  destruct (add_one h sep doc i k Hs (Hn i k (or_introl eq_refl))) as [[(x & Hx & Ed & Ei) _]|[Ea Ev]].
  - exfalso. apply (Hf x Hx Ed). left. now rewrite Ei.
  - set (h1 := h ++ _) in *. destruct (IH h1) as (h' & E' & V'); [intros j kj Hj; apply (Hn j kj); now right|exact Nd'| |].
    + intros x Hx Ed Hi. apply (in_map view) in Hx. rewrite Ev in Hx. apply in_app_or in Hx as [Hx|[Hx|[]]].
      * apply in_map_iff in Hx as (y & Ey & Hy). injection Ey as E1 E2 E3. apply (Hf y Hy); [congruence|]. right. rewrite E2. exact Hi.
      * unfold view in Hx. injection Hx as E1 E2 E3. apply Ni. rewrite E2. exact Hi.
    + exists h'. split; [rewrite Ea; exact E'|]. rewrite V', Ev, <- app_assoc. reflexivity.
Qed.
Lemma add_labels_dup sep doc i k b : sep_of sep <> nil -> forall a h, (forall i' k', In (i', k') (a ++ (i, k) :: b) -> names_label (sep_of sep) i') ->
  (exists x, In x (values (m_labels (run h))) /\ l_doc x = doc /\ l_id x = i) \/ In i (map fst a) ->
  add_labels sep doc (a ++ (i, k) :: b) (run h) = Raise DuplicateLabel.
Proof.
  intros Hs. induction a as [|[j kj] a IH]; intros h Hn He.
  - destruct He as [(x & Hx & Ed & Ei)|[]]. cbn [app]. destruct (add_one h sep doc i k Hs) as [[_ E]|[_ Ev]]; [apply (Hn i k); now left|apply E|].
    exfalso. destruct (Inv_run (h ++ [OAdd i (Some k) true sep (Some doc)])) as (W & K & _). apply wf_keyed in W; [|exact K].
    set (vs := values (m_labels (run (h ++ _)))) in *. assert (M : map key_of vs = map key_of (values (m_labels (run h))) ++ [(doc, i)]).
    { assert (Mv : forall l, map key_of l = map (fun v : str * str * option (list str) => (fst (fst v), snd (fst v))) (map view l)) by (intros l; rewrite map_map; reflexivity).
      rewrite !Mv, Ev, map_app. reflexivity. }
    rewrite M in W. apply NoDup_remove_2 in W. rewrite app_nil_r in W. apply W. rewrite <- Ed, <- Ei. apply (in_map key_of) in Hx. exact Hx.
  - cbn [app]. destruct (add_one h sep doc j kj Hs) as [[_ E]|[Ea Ev]]; [apply (Hn j kj); now left|apply E|]. rewrite Ea. apply IH; [intros i' k' Hi; apply (Hn i' k'); now right|].
    destruct He as [(x & Hx & Ed & Ei)|[<-|Hi]]; [left| |now right].
    + apply (in_map view) in Hx. assert (Hx' : In (view x) (map view (values (m_labels (run (h ++ [OAdd j (Some kj) true sep (Some doc)])))))) by (rewrite Ev; apply in_or_app; now left).
      apply in_map_iff in Hx' as (y & Ey & Hy). exists y. split; [exact Hy|]. injection Ey as E1 E2 _. split; congruence.
    + left. assert (Hx' : In (doc, j, Some kj) (map view (values (m_labels (run (h ++ [OAdd j (Some kj) true sep (Some doc)])))))) by (rewrite Ev; apply in_or_app; right; now left).
      apply in_map_iff in Hx' as (y & Ey & Hy). exists y. split; [exact Hy|]. injection Ey as E1 E2 _. cbn [fst]. split; congruence.
Qed.

(** Decimal numbers can be read *)
Definition read (s : str) : N := fold_left (fun a c => (10 * a + (c - 48)))%N s 0%N.
Lemma read_app s c : read (s ++ [c]) = (10 * read s + (c - 48))%N.
Proof. unfold read. rewrite fold_left_app. reflexivity. Qed.
Lemma digits_read f : forall n acc, (n < 2 ^ N.of_nat f)%N -> f <> O -> exists ds, digits_aux f n acc = ds ++ acc /\ read ds = n.
Proof.
  induction f as [|f IH]; intros n acc Hn Hf; [contradiction|]. cbn [digits_aux].
  assert (Hm : (n mod 10 < 10)%N) by (apply N.mod_lt; discriminate). assert (Hd : n = (10 * (n / 10) + n mod 10)%N) by (apply N.div_mod; discriminate).
  destruct (N.ltb_spec n 10) as [Hs|Hs].
  - exists [(48 + n mod 10)%N]. split; [reflexivity|]. unfold read. cbn [fold_left]. rewrite N.mod_small by exact Hs. lia.
  - assert (Hq : (n / 10 < 2 ^ N.of_nat f)%N). { apply N.div_lt_upper_bound; [discriminate|]. rewrite Nat2N.inj_succ, N.pow_succ_r' in Hn. lia. }
    assert (Hz : f <> O). { intros ->. cbn in Hq. assert (1 <= n / 10)%N; [|lia]. apply N.div_le_lower_bound; [discriminate|]. lia. }
    destruct (IH (n / 10)%N ((48 + n mod 10)%N :: acc) Hq Hz) as (ds & E & R). exists (ds ++ [(48 + n mod 10)%N]). split; [rewrite E, <- app_assoc; reflexivity|].
    rewrite read_app, R. set (a := (n / 10)%N) in *. set (b := (n mod 10)%N) in *. clearbody a b. lia.
Qed.
Lemma read_str n : read (str_of_N n) = n.
Proof.
  unfold str_of_N. destruct (digits_read (S (N.to_nat (N.log2 n))) n nil) as (ds & E & R); [|discriminate|rewrite E, app_nil_r; exact R].
  rewrite Nat2N.inj_succ, N2Nat.id. destruct n as [|p]; [reflexivity|]. apply N.log2_spec. reflexivity.
Qed.
Lemma str_of_nat_inj a b : str_of_nat a = str_of_nat b -> a = b.
Proof. unfold str_of_nat. intros E. apply (f_equal read) in E. rewrite !read_str in E. lia. Qed.

(** ** The ids *)
Lemma strip_nil s : eqb (strip s) nil = forallb is_space s.
Proof.
  pose proof (strip_p_nil_iff is_space s) as H. destruct (forallb is_space s) eqn:E; [apply eqb_eq, H; reflexivity|].
  apply eqb_neq. intros C. apply H in C. discriminate C.
Qed.
Section Ids.
Variables (slugify hashtxt : str -> str).
Notation label_ids := (label_ids slugify hashtxt).
Notation load_labels := (load_labels slugify hashtxt).

Lemma count_after doc : forall pre n post, label_ids doc (pre ++ post) n = label_ids doc pre n ++ label_ids doc post (n + blanks pre).
Proof.
  induction pre as [|it pre IH]; intros n post; [cbn [app AutoLabels.label_ids blanks]; now rewrite Nat.add_0_r|]. cbn [app AutoLabels.label_ids]. destruct it as [x|id cs].
  - destruct (heading_id slugify doc x n) as [i m] eqn:E. rewrite IH. cbn [app blanks]. do 3 f_equal.
    unfold heading_id, generate_label_id in E. unfold is_blank. destruct (h_id x) as [g|]; [injection E as _ <-; cbn; lia|]. destruct (h_short x) as [s|]; [injection E as _ <-; cbn; lia|].
    assert (Eb : eqb (strip (h_text x)) nil = forallb is_space (h_text x)) by apply strip_nil. rewrite Eb in E. destruct (h_plain x && forallb is_space (h_text x)); injection E as _ <-; lia.
  - rewrite IH, <- app_assoc. reflexivity.
Qed.
Lemma label_ids_length doc : forall l n, List.length (label_ids doc l n) = labels_of l.
Proof.
  induction l as [|[x|id cs] l IH]; intros n; [reflexivity| |]; cbn [AutoLabels.label_ids labels_of].
  - destruct (heading_id slugify doc x n) as [i m]. cbn [List.length]. now rewrite IH.
  - rewrite app_length, map_length, IH. f_equal. generalize id. induction cs as [|c cs IHc]; intros g; [reflexivity|]. cbn [caption_ids List.length]. now rewrite IHc.
Qed.
Lemma heading_at doc pre x post : has_id (label_ids doc (pre ++ Head x :: post) 0) (labels_of pre) (fst (heading_id slugify doc x (blanks pre))).
Proof.
  unfold has_id. rewrite count_after, nth_error_app2 by (rewrite label_ids_length; lia). rewrite label_ids_length, Nat.sub_diag. cbn [AutoLabels.label_ids Nat.add].
  destruct (heading_id slugify doc x (blanks pre)) as [i m]. reflexivity.
Qed.
Lemma prefix_eq c p : In (c, p) prefixes -> lookup c id_mappings = Some p.
Proof. cbn [In prefixes]. intuition; match goal with H : _ = (c, p) |- _ => injection H as <- <-; reflexivity end. Qed.

(** The id of a heading: the id that was given; or else the prefix for its kind and what slugify makes of
    the document and the title, which is the short title or the title of its text.  Other headings play no
    role. *)
Theorem C64_given : forall doc pre x post i, h_id x = Some i -> has_id (label_ids doc (pre ++ Head x :: post) 0) (labels_of pre) i.
Proof. intros doc pre x post i E. pose proof (heading_at doc pre x post) as H. unfold heading_id in H. rewrite E in H. exact H. Qed.
Theorem C64_titled : forall doc pre x post p,
  h_id x = None -> is_blank x = false -> In (h_class x, p) prefixes ->
  has_id (label_ids doc (pre ++ Head x :: post) 0) (labels_of pre)
    (p ++ lit ":" ++ slugify (doc ++ lit "-" ++ titlelize (match h_short x with Some s => s | None => h_text x end))).
Proof.
  intros doc pre x post p E B P. pose proof (heading_at doc pre x post) as H. unfold heading_id, generate_label_id in H. unfold is_blank in B. rewrite E in H, B.
  rewrite (prefix_eq _ _ P) in H. destruct (h_short x) as [s|]; [exact H|]. rewrite strip_nil, B in H. exact H.
Qed.
(** The headings without text are numbered. *)
Theorem C64_blank : forall doc pre x post p,
  is_blank x = true -> In (h_class x, p) prefixes ->
  has_id (label_ids doc (pre ++ Head x :: post) 0) (labels_of pre) (p ++ lit ":" ++ slugify doc ++ lit "-" ++ str_of_nat (S (blanks pre))).
Proof.
  intros doc pre x post p B P. pose proof (heading_at doc pre x post) as H. unfold heading_id, generate_label_id in H. unfold is_blank in B.
  destruct (h_id x); [discriminate|]. destruct (h_short x); [discriminate|]. rewrite (prefix_eq _ _ P), strip_nil, B in H. exact H.
Qed.
(** So that no two of them have the same id. *)
Lemma blanks_app a b : blanks (a ++ b) = blanks a + blanks b.
Proof. induction a as [|[x|? ?] a IH]; [reflexivity| |]; cbn [app blanks]; lia. Qed.
Lemma labels_app a b : labels_of (a ++ b) = labels_of a + labels_of b.
Proof. induction a as [|[x|? ?] a IH]; [reflexivity| |]; cbn [app labels_of]; lia. Qed.
Theorem C64_blank_distinct : forall doc pre x mid y post p q i j,
  is_blank x = true -> is_blank y = true -> In (h_class x, p) prefixes -> In (h_class y, q) prefixes ->
  let ids := label_ids doc (pre ++ Head x :: mid ++ Head y :: post) 0 in
  has_id ids (labels_of pre) i -> has_id ids (labels_of (pre ++ Head x :: mid)) j -> i <> j.
Proof.
  intros doc pre x mid y post p q i j Bx By Px Py ids Hi Hj E. subst j.
  pose proof (C64_blank doc pre x (mid ++ Head y :: post) p Bx Px) as Ix. pose proof (C64_blank doc (pre ++ Head x :: mid) y post q By Py) as Iy.
  rewrite <- app_assoc in Iy. cbn [app] in Iy. fold ids in Ix, Iy. unfold has_id in *. rewrite Hi in Ix. rewrite Hj in Iy.
  rewrite blanks_app in Iy. cbn [blanks] in Iy. rewrite Bx in Iy.
  assert (E : p ++ lit ":" ++ slugify doc ++ lit "-" ++ str_of_nat (S (blanks pre)) = q ++ lit ":" ++ slugify doc ++ lit "-" ++ str_of_nat (S (blanks pre + (1 + blanks mid)))) by congruence.
  assert (Epq : p = q).
  { assert (Np : forall c r, In (c, r) prefixes -> ~ In 58%N r) by (intros c r Hr; cbn [In prefixes] in Hr; intuition; match goal with H : _ = (c, r) |- _ => injection H as <- <- end; match goal with H : In _ _ |- _ => vm_compute in H; intuition discriminate end).
    change (p ++ 58%N :: (slugify doc ++ lit "-" ++ str_of_nat (S (blanks pre))) = q ++ 58%N :: (slugify doc ++ lit "-" ++ str_of_nat (S (blanks pre + (1 + blanks mid))))) in E.
    apply cut_first in E; [|exact (Np _ _ Py)]. destruct E as [[E _]|(a' & E & _)]; [exact E|]. exfalso. apply (Np _ _ Px). rewrite E. apply in_or_app. right. now left. }
  subst q. apply app_inv_head in E. apply (app_inv_head (lit ":")) in E. apply app_inv_head in E. apply (app_inv_head (lit "-")) in E. apply str_of_nat_inj in E. lia.
Qed.

(** The id of a figure goes to its first caption.  Other captions have the id that was given, or else one
    from the hash of their text. *)
Theorem C64_caption : forall doc pre id before c after post,
  let own := match c_id c with Some i => i | None => lit "caption-" ++ hashtxt (c_text c) end in
  has_id (label_ids doc (pre ++ Fig id (before ++ c :: after) :: post) 0) (labels_of pre + List.length before)
    (match before, id with nil, Some i => i | _, _ => own end).
Proof.
  intros doc pre id before c after post own. unfold has_id. rewrite count_after, nth_error_app2 by (rewrite label_ids_length; lia). rewrite label_ids_length.
  replace (labels_of pre + List.length before - labels_of pre) with (List.length before) by lia. cbn [AutoLabels.label_ids].
  rewrite nth_error_app1.
  2:{ rewrite map_length. clear. revert id. induction before as [|b before IH]; intros g; cbn [app caption_ids List.length]; [lia|]. specialize (IH None). lia. }
  rewrite nth_error_map. assert (G : forall g before, nth_error (caption_ids hashtxt g (before ++ c :: after)) (List.length before) = Some (match before, g with nil, Some i => i | _, _ => own end)).
  { clear -own. intros g before. revert g. induction before as [|b before IH]; intros g; cbn [app caption_ids List.length nth_error].
    - unfold caption_id, own. destruct g; reflexivity.
    - rewrite IH. destruct before; destruct g; reflexivity. }
  rewrite G. reflexivity.
Qed.

(** ** Loading a document *)

(** If the ids are different, every heading and every caption of a figure gets its label, in order; *)
Theorem C64_loaded_partial : forall h sep doc items,
  sep_of sep <> nil -> (forall x, In x (values (m_labels (run h))) -> l_doc x <> doc) ->
  (forall i k, In (i, k) (label_ids doc items 0) -> names_label (sep_of sep) i) -> NoDup (map fst (label_ids doc items 0)) ->
  exists m, load_labels sep doc items (run h) = Ok m /\
    map (fun l => (l_doc l, l_id l, l_kind l)) (values (m_labels m)) =
    map (fun l => (l_doc l, l_id l, l_kind l)) (values (m_labels (run h))) ++ map (fun ik => (doc, fst ik, Some (snd ik))) (label_ids doc items 0).
Proof.
  intros h sep doc items Hs Hf Hn Nd. destruct (add_labels_ok sep doc Hs (label_ids doc items 0) h Hn Nd) as (h' & E & V); [intros x Hx Ed; exfalso; exact (Hf x Hx Ed)|].
  exists (run h'). split; [exact E|exact V].
Qed.
(** if two are the same, the document cannot be loaded. *)
Theorem C64_duplicate : forall h sep doc items n m i,
  sep_of sep <> nil -> (forall i k, In (i, k) (label_ids doc items 0) -> names_label (sep_of sep) i) ->
  n < m -> has_id (label_ids doc items 0) n i -> has_id (label_ids doc items 0) m i ->
  load_labels sep doc items (run h) = Raise DuplicateLabel.
Proof.
  intros h sep doc items n m i Hs Hn Hlt H1 H2. unfold load_labels. unfold has_id in *. set (ids := label_ids doc items 0) in *. clearbody ids.
  destruct (nth_error ids m) as [[i' k]|] eqn:E; [|discriminate]. cbn in H2. injection H2 as ->. destruct (nth_error_split _ _ E) as (a & b & -> & La).
  apply add_labels_dup; [exact Hs|exact Hn|]. right. rewrite nth_error_app1 in H1 by lia. destruct (nth_error a n) as [[j kj]|] eqn:Ea; [|discriminate].
  cbn in H1. injection H1 as ->. apply nth_error_In in Ea. apply (in_map fst) in Ea. exact Ea.
Qed.
(** Findings: this is so for two headings of the same kind with the same title in one document - say, a
    summary in each of two chapters -, *)
Theorem C64_same_title_fails : forall h sep doc pre x mid y post p,
  sep_of sep <> nil -> let items := pre ++ Head x :: mid ++ Head y :: post in
  (forall i k, In (i, k) (label_ids doc items 0) -> names_label (sep_of sep) i) ->
  h_id x = None -> h_id y = None -> h_short x = None -> h_short y = None -> is_blank x = false -> is_blank y = false ->
  h_class x = h_class y -> In (h_class x, p) prefixes -> h_text x = h_text y ->
  load_labels sep doc items (run h) = Raise DuplicateLabel.
Proof.
  intros h sep doc pre x mid y post p Hs items Hn Ix Iy Sx Sy Bx By Ec P Et.
  pose proof (C64_titled doc pre x (mid ++ Head y :: post) p Ix Bx P) as Hx. rewrite Ec in P. pose proof (C64_titled doc (pre ++ Head x :: mid) y post p Iy By P) as Hy.
  rewrite <- app_assoc in Hy. cbn [app] in Hy. fold items in Hx, Hy. rewrite Sx, Et in Hx. rewrite Sy in Hy.
  eapply C64_duplicate; [exact Hs|exact Hn| |exact Hx|exact Hy]. rewrite labels_app. cbn [labels_of]. lia.
Qed.
(** and for two figures with captions with the same text. *)
Theorem C64_same_caption_fails : forall h sep doc pre c cs mid d ds post,
  sep_of sep <> nil -> let items := pre ++ Fig None (c :: cs) :: mid ++ Fig None (d :: ds) :: post in
  (forall i k, In (i, k) (label_ids doc items 0) -> names_label (sep_of sep) i) ->
  c_id c = None -> c_id d = None -> c_text c = c_text d ->
  load_labels sep doc items (run h) = Raise DuplicateLabel.
Proof.
  intros h sep doc pre c cs mid d ds post Hs items Hn Ic Id Et.
  pose proof (C64_caption doc pre None nil c cs (mid ++ Fig None (d :: ds) :: post)) as Hx. pose proof (C64_caption doc (pre ++ Fig None (c :: cs) :: mid) None nil d ds post) as Hy.
  rewrite <- app_assoc in Hy. cbn [app] in Hx, Hy. fold items in Hx, Hy. rewrite Ic, Et in Hx. rewrite Id in Hy.
  eapply C64_duplicate; [exact Hs|exact Hn| |exact Hx|exact Hy]. rewrite labels_app. cbn [labels_of List.length]. lia.
Qed.
End Ids.

(** A stand-in for slugify: like the package, it turns what is no letter or digit into hyphens. *)
Definition slug (s : str) : str := map (fun c => if ascii_word c then c else 45%N) s.
Definition head (cls text : string) : item := Head {| h_class := lit cls; h_id := None; h_short := None; h_text := lit text; h_plain := true |}.

(** Finding: headings with different texts cannot be loaded if their first sentences are the same, *)
Theorem C64_sentence_refuted : ~ (forall slugify hashtxt a b, a <> b ->
  exists m, load_labels slugify hashtxt None (lit "a.dm") [head "section" a; head "section" b] new_manager = Ok m).
Proof. intros H. destruct (H slug slug "Results. The first run"%string "Results. The second run"%string ltac:(discriminate)) as (m & E). discriminate E. Qed.
(** or if one has no text and the other one is its number. *)
Theorem C64_number_refuted : ~ (forall slugify hashtxt a,
  (forall c, In c (lit a) -> is_space c = false) -> a <> ""%string ->
  exists m, load_labels slugify hashtxt None (lit "a.dm") [head "section" ""; head "section" a] new_manager = Ok m).
Proof. intros H. destruct (H slug slug "1"%string ltac:(intros c [<-|[]]; reflexivity) ltac:(discriminate)) as (m & E). discriminate E. Qed.

Example C64_ex_title :
  titlelize (lit "My example  caption. It has 2 sentences") = lit "My example caption" /\
  titlelize (lit "A title
in two lines.") = lit "A title in two lines" /\ words [lit "A"; lit "title"] /\ ~ occurs (lit ". ") (lit "A title") /\ titlelize (lit "A title") = lit "A title".
Proof.
  split; [reflexivity|]. split; [reflexivity|]. split; [intros w [<-|[<-|[]]]; repeat split; vm_compute; intuition discriminate|]. split; [|reflexivity].
  intros (a & b & E). assert (C : contains (lit "A title") (lit ". ") = true) by (apply contains_iff; exists a, b; exact E). discriminate C.
Qed.
Definition ex_items : list item :=
  [head "chapter" "Methods"; head "section" " "; head "section" ""; head "section" "Summary. All of it";
   Fig (Some (lit "fig-1")) [{| c_id := None; c_text := lit "One" |}; {| c_id := None; c_text := lit "Two" |}];
   Head {| h_class := lit "chapter"; h_id := Some (lit "end"); h_short := None; h_text := lit "Methods"; h_plain := true |}].
Example C64_ex : 
  map fst (label_ids slug slug (lit "a.dm") ex_items 0) =
  [lit "ch:a-dm-Methods"; lit "sec:a-dm-1"; lit "sec:a-dm-2"; lit "sec:a-dm-Summary"; lit "fig-1"; lit "caption-Two"; lit "end"] /\
  (forall i k, In (i, k) (label_ids slug slug (lit "a.dm") ex_items 0) -> names_label (sep_of None) i) /\
  NoDup (map fst (label_ids slug slug (lit "a.dm") ex_items 0)) /\
  In (lit "section", lit "sec") prefixes /\ is_blank {| h_class := lit "section"; h_id := None; h_short := None; h_text := lit " "; h_plain := true |} = true.
Proof.
  assert (E : map fst (label_ids slug slug (lit "a.dm") ex_items 0) =
    [lit "ch:a-dm-Methods"; lit "sec:a-dm-1"; lit "sec:a-dm-2"; lit "sec:a-dm-Summary"; lit "fig-1"; lit "caption-Two"; lit "end"]) by reflexivity.
  split; [exact E|]. split.
  - intros i k Hi. apply (in_map fst) in Hi. rewrite E in Hi. apply Props.Ref.no_sep. cbn [fst] in Hi. repeat (destruct Hi as [<-|Hi]; [reflexivity|]). destruct Hi.
  - split; [|split; [do 3 right; now left|reflexivity]]. rewrite E. repeat (constructor; [cbn [In]; intros Hi; repeat (destruct Hi as [Hi|Hi]; [discriminate Hi|]); exact Hi|]). constructor.
Qed.

(** The rendering of tags in html (C70) *)
From Coq Require Import List Bool Arith NArith ZArith Lia.
From Verif.Base Require Import Str StrFacts Dict DictFacts Result PyText PyTextFacts.
From Verif.Model Require Import Attributes Formats TagParser Width TexFmt HtmlFmt.
From Verif.Spec Require Import HtmlFmt.
From Verif.Spec Require Attributes Formats TexFmt.
From Verif.Proof Require Import TagParser Formats.
From Verif.Proof Require Attributes.
From Verif.Props Require Formats TexFmt.
From Verif.Props Require Attributes.
Import ListNotations.

Lemma tables_named : Formats.named xhtml_tag_arguments /\ Formats.named xhtml_tag_optionals.
Proof. split; apply Formats.C47_settings. Qed.

(** ** Elements *)
Section Elements.
Variables (xml_char : char -> bool).
Let element := element xml_char.
(** The attributes of an element that is made *)
Lemma tag_spec name d n e : wf d -> xhtml_tag xhtml_tag_arguments xhtml_tag_optionals name d None = Ok (n, e) ->
  n = (if has name xhtml_tag_arguments || has name xhtml_tag_optionals then name else lit "span") /\ allowed n e /\
  (forall k v, lookup k e = Some v <->
     (In k (Formats.names xhtml_tag_arguments n ++ Formats.names xhtml_tag_optionals n) /\ lookup k d = Some v) \/
     (~ Formats.permitted xhtml_tag_arguments xhtml_tag_optionals name /\ k = lit "class" /\ v = VStr name /\ lookup k d = None)).
Proof.
  intros W H. destruct Formats.C47_settings as (A & B & C & D).
  destruct (Formats.C47_html _ _ name d None n e A B C D W ltac:(discriminate) H) as (H1 & H2 & H3 & H4 & H5 & H6).
  assert (Hn : n = (if has name xhtml_tag_arguments || has name xhtml_tag_optionals then name else lit "span")).
  { destruct (has name xhtml_tag_arguments || has name xhtml_tag_optionals) eqn:E.
    - apply H1. now apply has_permitted.
    - apply H2. intro P. apply has_permitted in P. congruence. }
  assert (S : ~ Formats.permitted xhtml_tag_arguments xhtml_tag_optionals name ->
     In (lit "class") (Formats.names xhtml_tag_arguments n ++ Formats.names xhtml_tag_optionals n)).
  { intro P. rewrite (H2 P). apply mem_In. reflexivity. }
  split; [exact Hn|]. split.
  - split; [exact H3|]. split; [exact H4|]. intros k v L. split; [|exact (H6 k v L)].
    apply H5 in L as [[L _]|(P & -> & _)]; [exact L | exact (S P)].
  - intros k v. rewrite H5. cbn [Attributes.pick]. split; (intros [L|(P & -> & -> & L)]; [left; exact L | right]).
    + repeat split; auto. destruct (lookup (lit "class") d) eqn:Q; [|reflexivity]. exfalso. apply L. split; [exact (S P) | discriminate].
    + repeat split; auto. intros [_ Q]. now apply Q.
Qed.
Lemma tag_made name d : wf d ->
  (forall k, In k (Formats.names xhtml_tag_arguments name) -> lookup k d <> None) ->
  (let n := if has name xhtml_tag_arguments || has name xhtml_tag_optionals then name else lit "span" in
   forall k v, In k (Formats.names xhtml_tag_arguments n ++ Formats.names xhtml_tag_optionals n) -> lookup k d = Some v -> exists x, v = VStr x) ->
  exists n e, xhtml_tag xhtml_tag_arguments xhtml_tag_optionals name d None = Ok (n, e).
Proof.
  intros W Hall Hv. destruct Formats.C47_settings as (Ha & Ho & Hs & _).
  destruct (xhtml_tag_eq _ _ name d None Ha Ho Hs W ltac:(discriminate)) as (fr & fo & Wr & Wo & Lr & Lo & _ & Hgood).
  rewrite Hgood.
  2:{ intros k Hk. destruct (has name xhtml_tag_arguments || has name xhtml_tag_optionals); [exact (Hall k Hk)|].
      unfold Formats.names in Hk. rewrite Hs in Hk. destruct Hk. }
  cbv zeta in Hv. cbn [Attributes.pick] in Lr, Lo.
  destruct (set_all_ok fr []) as [e1 E1].
  { intros k v Hi. apply In_lookup in Hi; [|exact Wr]. rewrite Lr in Hi. destruct (mem k _) eqn:M; [|discriminate].
    apply mem_In in M. apply (Hv k v); [apply in_or_app; now left | exact Hi]. }
  rewrite E1. cbn [bind]. destruct (set_all_ok fo e1) as [e2 E2].
  { intros k v Hi. apply In_lookup in Hi; [|exact Wo]. rewrite Lo in Hi. destruct (mem k _) eqn:M; [|discriminate].
    apply mem_In in M. apply (Hv k v); [apply in_or_app; now right | exact Hi]. }
  rewrite E2. cbn [bind].
  destruct (has name _ || has name _ || has (lit "class") fr || has (lit "class") fo); cbn [set_all bind]; eauto.
Qed.
(** Only the attributes that an element may have matter *)
Lemma filtered_ext tb name n d d' : Formats.named tb -> wf d -> wf d' ->
  n = (if has name xhtml_tag_arguments || has name xhtml_tag_optionals then name else lit "span") ->
  tb = xhtml_tag_arguments \/ tb = xhtml_tag_optionals ->
  (forall k, In k (Formats.names tb n) -> lookup k d = lookup k d') ->
  filtered d None (required tb (has name xhtml_tag_arguments || has name xhtml_tag_optionals) name) =
  filtered d' None (required tb (has name xhtml_tag_arguments || has name xhtml_tag_optionals) name).
Proof.
  intros N W W' Hn T H.
  destruct (required tb (has name xhtml_tag_arguments || has name xhtml_tag_optionals) name) as [r|] eqn:R; [|reflexivity].
  assert (L : lookup n tb = Some r).
  { unfold required in R. destruct (lookup name tb) as [r'|] eqn:E.
    - assert (A : has name xhtml_tag_arguments || has name xhtml_tag_optionals = true).
      { unfold has. destruct T as [->| ->]; rewrite E; [reflexivity | now destruct (lookup name xhtml_tag_arguments)]. }
      rewrite A in Hn. subst n. congruence.
    - destruct (has name xhtml_tag_arguments || has name xhtml_tag_optionals); [discriminate|]. now subst n. }
  destruct (N n r L) as (E & P & S & _). cbn [filtered]. rewrite E.
  rewrite !Attributes.C02_filter_by_names by (assumption || discriminate). cbn [bind]. do 2 f_equal. unfold Attributes.expected.
  assert (U : forall k, In k (ListUtils.uniq (Formats.names tb n)) -> lookup k d = lookup k d').
  { intros k K. apply H. exact (proj1 (Proof.Attributes.uniq_In _ _) K). }
  revert U. generalize (ListUtils.uniq (Formats.names tb n)). clear. intros l U. induction l as [|k l IH]; [reflexivity|].
  cbn [flat_map]. unfold Attributes.pick at 1 3. rewrite (U k (or_introl eq_refl)), IH; [reflexivity|]. intros k' K. apply U. now right.
Qed.
Lemma tag_ext name n d d' : wf d -> wf d' ->
  n = (if has name xhtml_tag_arguments || has name xhtml_tag_optionals then name else lit "span") ->
  (forall k, In k (Formats.names xhtml_tag_arguments n ++ Formats.names xhtml_tag_optionals n) -> lookup k d = lookup k d') ->
  xhtml_tag xhtml_tag_arguments xhtml_tag_optionals name d None = xhtml_tag xhtml_tag_arguments xhtml_tag_optionals name d' None.
Proof.
  intros W W' Hn H. destruct Formats.C47_settings as (A & B & _). unfold xhtml_tag. cbv zeta.
  rewrite (filtered_ext xhtml_tag_arguments name n d d' A W W' Hn (or_introl eq_refl)) by (intros k K; apply H, in_or_app; now left).
  rewrite (filtered_ext xhtml_tag_optionals name n d d' B W W' Hn (or_intror eq_refl)) by (intros k K; apply H, in_or_app; now right).
  reflexivity.
Qed.
Lemma element_inv name d ks n : element name d ks = Ok n -> exists m e,
  xhtml_tag xhtml_tag_arguments xhtml_tag_optionals name d None = Ok (m, e) /\ n = NElem m e (filter not_empty ks).
Proof.
  unfold element, HtmlFmt.element. destruct (xhtml_tag _ _ _ _ _) as [[m e]|]; [|discriminate]. cbn [bind].
  destruct (_ && _); [|discriminate]. intros [= <-]. eauto.
Qed.
Lemma text_filter ks : concat (map text_of (filter not_empty ks)) = concat (map text_of ks).
Proof.
  induction ks as [|k ks IH]; [reflexivity|]. cbn [filter]. destruct (not_empty k) eqn:E; cbn [map concat]; rewrite IH; [reflexivity|].
  destruct k as [[|]| |]; try discriminate E. reflexivity.
Qed.
Lemma element_text name d ks n : element name d ks = Ok n -> text_of n = concat (map text_of ks).
Proof. intro H. apply element_inv in H as (m & e & _ & ->). cbn [text_of]. apply text_filter. Qed.
Lemma element_allowed name d ks n : wf d -> element name d ks = Ok n -> Forall (everywhere allowed) ks -> everywhere allowed n.
Proof.
  intros W H K. apply element_inv in H as (m & e & H & ->). destruct (tag_spec _ _ _ _ W H) as (_ & A & _).
  constructor; [exact A|]. apply Forall_forall. intros x X. apply filter_In in X as [X _]. rewrite Forall_forall in K. now apply K.
Qed.
End Elements.

Lemma class_p lower inactive name : class_of lower inactive name = Some (lit "p") -> lower name = lit "p".
Proof.
  unfold class_of. destruct (tag_class lower inactive name) as [[tc|]|] eqn:TC; [|discriminate|discriminate].
  intro K. assert (T : t_name tc = lit "p") by congruence. clear K. apply TexFmt.C69_names in TC as (I1 & I2 & _).
  assert (F : forallb (fun c => negb (eqb (t_name c) (lit "p")) || match t_aliases c with nil => true | _ => false end) classes = true) by (vm_compute; reflexivity).
  rewrite forallb_forall in F. specialize (F tc I1). rewrite T, eqb_refl in F. cbn [negb orb] in F.
  unfold Spec.TexFmt.names in I2. destruct (t_aliases tc); [|discriminate]. rewrite T in I2. destruct I2 as [I2|[]]. congruence.
Qed.
(** ** Renderings *)
Section Html.
Variables (lower : str -> str) (uw : char -> bool) (pv : str -> ptype) (inactive : list str).
Variables (to_float : str -> option num) (times100 : num -> num) (xml_char : char -> bool) (entity_name : str -> bool).
Variables (name2codepoint : str -> option N) (other : bool -> content -> result node).
Let html := html_fmt lower uw pv inactive to_float times100 xml_char entity_name name2codepoint other.
Let cls := class_of lower inactive.
Let element := element xml_char.
Let atts := attributes_of uw pv.
Let hattrs := html_attributes to_float times100.

Fixpoint kids_of (f : content -> result node) (l : list content) : result (list node) :=
  match l with
  | nil => Ok nil
  | x :: r => do n <- f x ; do ns <- kids_of f r ; Ok (n :: ns)
  end.
Definition kids (f : content -> result node) (c : content) : result (list node) :=
  match c with Items l => kids_of f l | _ => do n <- f c ; Ok [n] end.
Lemma kids_renders f c ns : kids f c = Ok ns <-> renders f c ns.
Proof.
  destruct c as [s|m a c|l]; cbn [kids renders]; [destruct (f (Text s)) | destruct (f (Tag m a c)) |]; cbn [bind].
  1,3: split; [intros [= <-]; eauto | intros (y & [= <-] & ->); reflexivity].
  1,2: split; [discriminate | intros (y & [=] & _)].
  revert ns. induction l as [|x l IH]; intros ns; cbn [kids_of].
  - split; [intros [= <-]; constructor | intro H; now inversion H].
  - destruct (f x) as [n|] eqn:E; cbn [bind]; [|split; [discriminate | intro H; inversion H; congruence]].
    destruct (kids_of f l) as [ms|]; cbn [bind].
    + split; [intros [= <-]; constructor; [exact E | now apply IH]|].
      intro H. inversion H as [|? n' ? ms' Hx Hl]; subst. rewrite E in Hx. injection Hx as <-. apply IH in Hl. injection Hl as <-. reflexivity.
    + split; [discriminate|]. intro H. inversion H as [|? n' ? ms' Hx Hl]; subst. apply IH in Hl. discriminate.
Qed.
Lemma html_tag xh name a c : html xh (Tag name a c) =
  match cls name with
  | None => do ns <- kids (html xh) c ; element (lower name) (atts a) ns
  | Some k =>
      if eqb k (lit "p") then do ns <- kids (html xh) c ; element (lower name) (atts a) ns
      else if eqb k (lit "symbol") then
        match c with
        | Text s => let s := if xh then strip s else s in
                    entity entity_name (if xh then match name2codepoint s with Some n => lit "#" ++ str_of_N n | None => s end else s)
        | _ => Raise (if xh then AttributeError else OtherError)
        end
      else if eqb k (lit "supsub") then
        match c with
        | Text s => match split_s (lit "&&") s with
                    | [x; y] => do d <- copy (atts a) ;
                                do br <- element (lit "br") nil nil ;
                                element (lit "span") (set (lit "class") (VStr (lit "supsub")) d)
                                  [NText (strip x); br; NText (strip y)]
                    | _ => Raise TagError
                    end
        | _ => Raise TagError
        end
      else match lookup k html_name with
           | Some n => do d <- hattrs xh k (own_attributes lower inactive k c (atts a)) ; do ns <- kids (html xh) c ; element n d ns
           | None =>
               match lookup k html_heading with
               | Some n => if no_label c (atts a) then do ns <- kids (html xh) c ; element n (atts a) ns else other xh (Tag name a c)
               | None => other xh (Tag name a c)
               end
           end
  end.
Proof.
  assert (G : forall l, (fix go (l : list content) : result (list node) :=
                                  match l with
                                  | nil => Ok nil
                                  | x :: r => do n <- html xh x ; do ns <- go r ; Ok (n :: ns)
                                  end) l = kids_of (html xh) l) by (induction l as [|x l IH]; [reflexivity | cbn [kids_of]; now rewrite IH]).
  unfold html at 1. cbn [html_fmt]. fold html. destruct c as [s|m b c|l]; [reflexivity | reflexivity |].
  cbn [kids]. rewrite <- (G l). reflexivity.
Qed.
Lemma wf_atts a : wf (atts a).
Proof. destruct a; [apply Attributes.C03_load_wf|]; constructor. Qed.
Lemma copy_inv d o : copy d = Ok o -> o = d /\ lookup (lit "self") d = None.
Proof. unfold copy, has. destruct (lookup (lit "self") d); [discriminate|]. now intros [= <-]. Qed.
Lemma wf_width d t o : wf d -> xhtml_percentwidth to_float times100 d t = Ok o -> wf o.
Proof.
  intro W. unfold xhtml_percentwidth. destruct (find_item _ _ _) as [fi|]; [|now intros [= <-]].
  destruct (value_percentage _ _ _) as [[p|]|]; cbn [bind]; [| now intros [= <-] | discriminate].
  destruct (find_window windows p) as [w|]; [|now intros [= <-]].
  destruct (lookup _ d) as [[x| |]|]; try discriminate; intros [= <-]; now apply wf_set.
Qed.
Lemma wf_hattrs xh k d o : wf d -> hattrs xh k d = Ok o -> wf o.
Proof.
  intro W. unfold hattrs, html_attributes. cbv zeta.
  destruct (eqb k (lit "body")).
  { destruct (copy d) as [e|] eqn:C; [|discriminate]. apply copy_inv in C as [-> _]. cbn [bind]. intros [= <-]. now apply wf_set. }
  destruct (eqb k (lit "panel")).
  { destruct (copy d) as [e|] eqn:C; [|discriminate]. apply copy_inv in C as [-> _]. cbn [bind]. apply wf_width. now apply wf_set. }
  destruct (lookup k box_class).
  { destruct (copy d) as [e|] eqn:C; [|discriminate]. apply copy_inv in C as [-> _]. cbn [bind].
    destruct (lookup _ d) as [[x| |]|]; try discriminate; intros [= <-]; now apply wf_set. }
  destruct (lookup k figure_class); [|now intros [= <-]].
  destruct (copy d) as [e|] eqn:C; [|discriminate]. apply copy_inv in C as [-> _]. cbn [bind]. intros [= <-]. apply wf_set.
  destruct (xh && _); [now apply wf_set | exact W].
Qed.
Lemma wf_own k c a : wf (own_attributes lower inactive k c (atts a)).
Proof. unfold own_attributes. destruct (_ && _); [apply wf_remove|]; apply wf_atts. Qed.
Lemma html_inv xh name a c n : html xh (Tag name a c) = Ok n ->
  (cls name <> Some (lit "supsub") /\ cls name <> Some (lit "symbol") /\
    ((exists nm d ns, wf d /\ renders (html xh) c ns /\ element nm d ns = Ok n) \/ other xh (Tag name a c) = Ok n)) \/
  (cls name = Some (lit "symbol") /\ exists s, n = NEntity s) \/
  (cls name = Some (lit "supsub") /\ exists s x y d br, c = Text s /\ split_s (lit "&&") s = [x; y] /\ wf d /\
     element (lit "br") nil nil = Ok br /\ element (lit "span") d [NText (strip x); br; NText (strip y)] = Ok n).
Proof.
  rewrite html_tag. intro H. destruct (cls name) as [k|] eqn:K.
  2:{ left. split; [discriminate|]. split; [discriminate|]. left. destruct (kids (html xh) c) as [ns|] eqn:E; [|discriminate].
      apply kids_renders in E. exists (lower name), (atts a), ns. split; [apply wf_atts|]. auto. }
  destruct (eqb_spec k (lit "p")) as [->|_].
  { left. split; [discriminate|]. split; [discriminate|]. left. destruct (kids (html xh) c) as [ns|] eqn:E; [|discriminate].
    apply kids_renders in E. exists (lower name), (atts a), ns. split; [apply wf_atts|]. auto. }
  destruct (eqb_spec k (lit "symbol")) as [->|Ns].
  { right. left. split; [reflexivity|]. destruct c as [s| |]; [|destruct xh; discriminate|destruct xh; discriminate].
    cbv zeta in H. unfold entity in H. cbv zeta in H. destruct (entity_name _); [|discriminate]. injection H as <-. eauto. }
  destruct (eqb_spec k (lit "supsub")) as [->|Nu].
  { right. right. split; [reflexivity|]. destruct c as [s| |]; [|discriminate|discriminate].
    destruct (split_s (lit "&&") s) as [|x [|y [|]]] eqn:S; [discriminate H | discriminate H | | discriminate H].
    destruct (copy (atts a)) as [d|] eqn:C; [|discriminate]. apply copy_inv in C as [-> _]. cbn [bind] in H.
    destruct (element (lit "br") nil nil) as [br|] eqn:B; [|discriminate]. cbn [bind] in H.
    exists s, x, y. eexists. exists br. split; [reflexivity|]. split; [exact S|]. split; [|split; [reflexivity | exact H]]. apply wf_set, wf_atts. }
  left. split; [congruence|]. split; [congruence|]. destruct (lookup k html_name) as [nm|].
  { left. destruct (hattrs _ _ _) as [d|] eqn:D; [|discriminate]. cbn [bind] in H. apply wf_hattrs in D; [|apply wf_own].
    destruct (kids (html xh) c) as [ns|] eqn:E; [|discriminate]. apply kids_renders in E. exists nm, d, ns. auto. }
  destruct (lookup k html_heading) as [nm|]; [|now right]. destruct (no_label c (atts a)); [|now right].
  left. destruct (kids (html xh) c) as [ns|] eqn:E; [|discriminate]. apply kids_renders in E. exists nm, (atts a), ns. split; [apply wf_atts|]. auto.
Qed.
(** The text *)
Lemma html_text xh : (forall t n s, other xh t = Ok n -> plain cls t s -> text_of n = s) ->
  forall c s ns, renders (html xh) c ns -> plain cls c s -> concat (map text_of ns) = s.
Proof.
  intro O. induction c as [t|name a c IH|l IH] using content_ind'; intros s ns R P.
  - destruct R as (n & [= <-] & ->). inversion P; subst. cbn. apply app_nil_r.
  - destruct R as (n & R & ->). cbn [map concat]. rewrite app_nil_r. pose proof P as P0.
    apply html_inv in R as [(N1 & N2 & [(nm & d & ms & _ & R & E)|E])|[(K & w & ->)|(K & t & x & y & d & br & -> & S & _ & B & E)]].
    + apply element_text in E. rewrite E. inversion P; subst; try contradiction. now apply IH.
    + exact (O _ _ _ E P0).
    + inversion P; subst; match goal with H : cls name = Some (lit "supsub") |- _ => rewrite K in H; discriminate H | _ => try contradiction; reflexivity end.
    + inversion P as [|? ? ? ? Q1 Q2|? ? ? Q|? ? x' y' Q Nx|]; subst; try congruence; try (rewrite K in Q; discriminate Q).
      change (split_s (lit "&&") (x' ++ lit "&&" ++ y') = [x; y]) in S. rewrite TexFmt.split_amp in S by exact Nx. injection S as <- S.
      pose proof (TexFmt.split_s_join (lit "&&") y' ltac:(discriminate)) as J. change (split_s (lit "&&") y' = [y]) in S. rewrite S in J. cbn [join] in J. subst y'.
      apply element_inv in B as (m & e & _ & ->). apply element_text in E. rewrite E. cbn [map concat text_of app]. rewrite app_nil_r. reflexivity.
  - inversion P as [| | | |? xs F]; subst. cbn [renders] in R. clear P. revert ns xs R F.
    induction IH as [|x l X L IHl]; intros ns xs R F; inversion R as [|? n ? ms Rx Rr]; inversion F as [|? s1 ? ss Fx Fr]; subst; [reflexivity|].
    cbn [map concat]. f_equal; [|now apply IHl].
    assert (W : concat (map text_of [n]) = s1); [|cbn in W; now rewrite app_nil_r in W].
    apply X; [|exact Fx]. destruct x; [exists n; split; [exact Rx | reflexivity] | exists n; split; [exact Rx | reflexivity] | discriminate Rx].
Qed.
Lemma html_allowed xh : (forall t n, other xh t = Ok n -> everywhere allowed n) ->
  forall c ns, renders (html xh) c ns -> Forall (everywhere allowed) ns.
Proof.
  intro O. induction c as [t|name a c IH|l IH] using content_ind'; intros ns R.
  - destruct R as (n & [= <-] & ->). repeat constructor.
  - destruct R as (n & R & ->). constructor; [|constructor].
    apply html_inv in R as [(N1 & N2 & [(nm & d & ms & W & R & E)|E])|[(K & w & ->)|(K & t & x & y & d & br & -> & S & W & B & E)]].
    + apply (element_allowed _ _ _ _ _ W E). now apply IH.
    + exact (O _ _ E).
    + constructor.
    + apply (element_allowed _ _ _ _ _ W E). constructor; [constructor|]. constructor; [|constructor; constructor].
      exact (element_allowed _ _ _ _ _ (wf_nil) B (Forall_nil _)).
  - cbn [renders] in R. revert ns R. induction IH as [|x l X L IHl]; intros ns R; inversion R as [|? n ? ms Rx Rr]; subst; constructor; [|now apply IHl].
    assert (W : Forall (everywhere allowed) [n]); [|now inversion W]. apply X. destruct x; [exists n; split; [exact Rx | reflexivity] | exists n; split; [exact Rx | reflexivity] | discriminate Rx].
Qed.
(** Errors *)
Lemma set_all_wf l : forall e o, wf e -> set_all e l = Ok o -> wf o.
Proof.
  induction l as [|[k v] l IH]; intros e o W H; cbn [set_all] in H; [now injection H as <-|].
  destruct v; try discriminate. apply IH in H; [exact H | now apply wf_set].
Qed.
Lemma tag_wf name d m e : xhtml_tag xhtml_tag_arguments xhtml_tag_optionals name d None = Ok (m, e) -> wf e.
Proof.
  unfold xhtml_tag. destruct (filtered d None (required xhtml_tag_arguments _ name)) as [r1|]; [|discriminate]. cbn [bind].
  destruct (match r1 with Some f => _ | None => _ end) as [u|]; [|discriminate]. cbn [bind].
  destruct (filtered d None (required xhtml_tag_optionals _ name)) as [r2|]; [|discriminate]. cbn [bind].
  destruct (set_all [] (some_attrs r1)) as [e1|] eqn:E1; [|discriminate]. cbn [bind].
  destruct (set_all e1 (some_attrs r2)) as [e2|] eqn:E2; [|discriminate]. cbn [bind].
  destruct (set_all e2 _) as [e3|] eqn:E3; [|discriminate]. cbn [bind]. intros [= _ <-].
  apply set_all_wf in E1; [|constructor]. apply set_all_wf in E2; [|exact E1]. now apply set_all_wf in E3.
Qed.
Lemma names_few n k : ~ In n [lit "a"; lit "img"; lit "link"] ->
  In k (Formats.names xhtml_tag_arguments n ++ Formats.names xhtml_tag_optionals n) -> In k [lit "class"; lit "id"; lit "style"; epub_type].
Proof.
  intros N I. apply in_app_or in I as [I|I].
  - unfold Formats.names in I. destruct (lookup n xhtml_tag_arguments) as [l|] eqn:L; [|destruct I].
    exfalso. apply N. apply lookup_In in L. apply (in_map fst) in L. exact L.
  - unfold Formats.names in I. destruct (lookup n xhtml_tag_optionals) as [l|] eqn:L; [|destruct I].
    apply lookup_In in L.
    assert (F : forallb (fun e => mem (fst e) [lit "a"; lit "img"; lit "link"] ||
      forallb (fun k => mem k [lit "class"; lit "id"; lit "style"; epub_type])
        (flat_map (fun a => match a with RKey k => [k] | RPos _ => [] end) (snd e))) xhtml_tag_optionals = true) by (vm_compute; reflexivity).
    rewrite forallb_forall in F. specialize (F _ L). cbn [fst snd] in F. apply orb_true_iff in F as [F|F]; [apply mem_In in F; contradiction|].
    rewrite forallb_forall in F. apply mem_In. now apply F.
Qed.
Definition made (name : str) (d : attrs) (ns : list node) : Prop := exists m e, element name d ns = Ok (NElem m e (filter not_empty ns)).
Lemma element_made name d ns : wf d -> good_attributes xml_char d -> xml_text xml_char name ->
  ~ In name [lit "a"; lit "img"; lit "link"] -> Forall (fun n => text_ok xml_char n = true) ns -> made name d ns.
Proof.
  intros W [_ G] X N T.
  assert (N' : ~ In (if has name xhtml_tag_arguments || has name xhtml_tag_optionals then name else lit "span") [lit "a"; lit "img"; lit "link"]).
  { destruct (_ || _); [exact N|]. apply mem_not_In. reflexivity. }
  destruct (tag_made name d W) as (m & e & E).
  - intros k K. exfalso. unfold Formats.names in K. destruct (lookup name xhtml_tag_arguments) eqn:L; [|destruct K].
    apply N. apply lookup_In in L. apply (in_map fst) in L. exact L.
  - intros n k v K L. subst n. apply names_few in K; [|exact N']. destruct (G k v K L) as (x & -> & _). eauto.
  - exists m, e. unfold element, HtmlFmt.element. rewrite E. cbn [bind]. destruct (tag_spec _ _ _ _ W E) as (Hn & _ & S).
    rewrite <- Hn in N'.
    replace (forallb (text_ok xml_char) (filter not_empty ns)) with true.
    2:{ symmetry. apply forallb_forall. intros x I. apply filter_In in I as [I _]. rewrite Forall_forall in T. now apply T. }
    replace (forallb (value_ok xml_char) e) with true; [reflexivity|].
    symmetry. apply forallb_forall. intros [k v] I. apply In_lookup in I; [|exact (tag_wf _ _ _ _ E)].
    apply S in I as [[I L]|(_ & -> & -> & _)].
    + apply names_few in I; [|exact N']. destruct (G k v I L) as (x & -> & Q). cbn. now apply forallb_forall, Forall_forall.
    + cbn. now apply forallb_forall, Forall_forall.
Qed.
Hypothesis ascii : forall c, (32 <= c < 127)%N -> xml_char c = true.
Definition printable (x : str) : bool := forallb (fun c => (32 <=? c)%N && (c <? 127)%N) x.
Lemma ascii_text x : printable x = true -> xml_text xml_char x.
Proof.
  intro H. apply Forall_forall. intros c C. apply ascii. unfold printable in H. rewrite forallb_forall in H. specialize (H c C).
  apply andb_true_iff in H as [H1 H2]. apply N.leb_le in H1. apply N.ltb_lt in H2. lia.
Qed.
Lemma good_class x d : xml_text xml_char x -> good_attributes xml_char d -> good_attributes xml_char (set (lit "class") (VStr x) d).
Proof.
  intros X [G1 G2]. split; [rewrite lookup_set_neq; [exact G1 | discriminate]|].
  intros k v K. destruct (eqb_spec k (lit "class")) as [->|Nk].
  - rewrite lookup_set_eq. intros [= <-]. eauto.
  - rewrite lookup_set_neq by congruence. now apply G2.
Qed.
Definition simple_classes : list str :=
  [lit "body"; lit "bold"; lit "italics"; lit "sup"; lit "sub"; lit "verb"; lit "para"; lit "sidenote";
   lit "featurebox"; lit "examplebox"; lit "problembox"; lit "marginfigure"; lit "figure"; lit "fullfigure"].
Lemma hattrs_good xh k d : wf d -> good_attributes xml_char d -> In k simple_classes ->
  exists o, hattrs xh k d = Ok o /\ good_attributes xml_char o.
Proof.
  intros W G K. pose proof G as [G1 G2]. assert (C : copy d = Ok d) by (unfold copy, has; now rewrite G1).
  unfold hattrs, html_attributes. cbv zeta. rewrite C. cbn [bind].
  destruct (eqb k (lit "body")); [eexists; split; [reflexivity|]; apply good_class; [now apply ascii_text | exact G]|].
  destruct (eqb_spec k (lit "panel")) as [->|_]; [exfalso; revert K; now apply mem_not_In|].
  destruct (lookup k box_class) as [b|] eqn:B.
  { assert (Xb : xml_text xml_char b).
    { apply ascii_text. apply lookup_In in B. destruct B as [B|[B|[B|[]]]]; injection B as _ <-; reflexivity. }
    destruct (lookup (lit "class") d) as [v|] eqn:L; [|eexists; split; [reflexivity|]; now apply good_class].
    destruct (G2 (lit "class") v ltac:(now left) L) as (x & -> & X). eexists; split; [reflexivity|].
    apply good_class; [|exact G]. apply Forall_app. split; [exact X|]. apply Forall_app. split; [now apply ascii_text | exact Xb]. }
  destruct (lookup k figure_class) as [f|] eqn:F; [|eauto].
  assert (Xf : printable f = true).
  { apply lookup_In in F. destruct F as [F|[F|[F|[]]]]; injection F as _ <-; reflexivity. }
  eexists; split; [reflexivity|]. apply good_class.
  - destruct (has _ _); apply ascii_text; [|exact Xf]. unfold printable. rewrite forallb_app. fold (printable f). now rewrite Xf.
  - destruct (xh && _); [|exact G]. split; [rewrite lookup_set_neq; [exact G1 | discriminate]|].
    intros k' v K'. destruct (eqb_spec k' epub_type) as [->|Nk].
    + rewrite lookup_set_eq. intros [= <-]. eexists. split; [reflexivity|]. now apply ascii_text.
    + rewrite lookup_set_neq by congruence. now apply G2.
Qed.
Lemma own_good k c d : wf d -> good_attributes xml_char d -> good_attributes xml_char (own_attributes lower inactive k c d).
Proof.
  intros W [G1 G2]. unfold own_attributes. destruct (_ && _); [|now split].
  split; [rewrite lookup_remove by exact W; now destruct (eqb _ _)|].
  intros k' v K. rewrite lookup_remove by exact W. destruct (eqb _ _); [discriminate|]. now apply G2.
Qed.
Hypothesis codepoints : forall s n, name2codepoint s = Some n -> entity_name (strip (lit "#" ++ str_of_N n)) = true.
Let good := good cls lower atts xml_char entity_name.
Definition fine (n : node) : Prop := text_ok xml_char n = true.
Lemma made_fine name d ns : made name d ns -> exists n, element name d ns = Ok n /\ fine n.
Proof. intros (m & e & E). eexists. split; [exact E | reflexivity]. Qed.
Lemma strip_xml x : xml_text xml_char x -> xml_text xml_char (strip x).
Proof.
  intro X. destruct (strip_p_decomp is_space x) as (p & q & E & _). unfold xml_text in *. rewrite E in X.
  apply Forall_app in X as [_ X]. now apply Forall_app in X as [X _].
Qed.
Lemma html_ok xh : forall c, good c -> exists ns, renders (html xh) c ns /\ Forall fine ns.
Proof.
  induction c as [t|name a c IH|l IH] using content_ind'; intro G.
  - exists [NText t]. split; [exists (NText t); split; reflexivity|]. inversion G as [? X| | | |]; subst.
    repeat constructor. unfold fine. cbn. now apply forallb_forall, Forall_forall.
  - assert (Q : exists n, html xh (Tag name a c) = Ok n /\ fine n).
    2:{ destruct Q as (n & Q & F). exists [n]. split; [exists n; split; [exact Q | reflexivity] | now constructor]. }
    inversion G as [|? ? ? K A Gc| |? ? s K E|? ? x y K A Nx Ny X Y]; subst.
    + destruct (IH Gc) as (ns & R & F). apply kids_renders in R. rewrite html_tag.
      destruct K as [(K & X & N)|(k & K & I)].
      * unfold cls in K |- *. rewrite K, R. cbn [bind]. apply made_fine, element_made; auto. apply wf_atts.
      * unfold cls in K |- *. rewrite K.
        destruct (eqb_spec k (lit "p")) as [->|Np].
        { rewrite R. cbn [bind]. pose proof (class_p _ _ _ K) as L.
          rewrite L. apply made_fine, element_made; auto; [apply wf_atts | now apply ascii_text | now apply mem_not_In]. }
        assert (I' : In k simple_classes).
        { destruct I as [I|[I|I]]; [left; exact I | congruence | right; exact I]. }
        destruct (eqb_spec k (lit "symbol")) as [->|_]; [exfalso; revert I'; now apply mem_not_In|].
        destruct (eqb_spec k (lit "supsub")) as [->|_]; [exfalso; revert I'; now apply mem_not_In|].
        assert (HN : exists nm, lookup k html_name = Some nm /\ printable nm = true /\ ~ In nm [lit "a"; lit "img"; lit "link"]).
        { assert (FB : forallb (fun k => match lookup k html_name with Some nm => printable nm && negb (mem nm [lit "a"; lit "img"; lit "link"]) | None => false end) simple_classes = true) by (vm_compute; reflexivity).
          rewrite forallb_forall in FB. specialize (FB k I'). destruct (lookup k html_name) as [nm|]; [|discriminate].
          apply andb_true_iff in FB as [F1 F2]. exists nm. split; [reflexivity|]. split; [exact F1|]. apply mem_not_In. now destruct (mem nm _). }
        destruct HN as (nm & -> & Pn & Nn).
        destruct (hattrs_good xh k _ (wf_own k c a) (own_good k c _ (wf_atts a) A) I') as (o & Ho & Go). rewrite Ho. cbn [bind]. rewrite R. cbn [bind].
        apply made_fine, element_made; [exact (wf_hattrs _ _ _ _ (wf_own k c a) Ho) | exact Go | now apply ascii_text | exact Nn | exact F].
    + rewrite html_tag. unfold cls in K |- *. rewrite K.
      change (eqb (lit "symbol") (lit "p")) with false. change (eqb (lit "symbol") (lit "symbol")) with true. cbv iota zeta.
      unfold entity. cbv zeta. destruct xh.
      * destruct (name2codepoint (strip s)) as [u|] eqn:U; [rewrite (codepoints _ _ U); eexists; split; reflexivity|].
        unfold strip in *. rewrite strip_p_idem, E. eexists; split; reflexivity.
      * rewrite E. eexists; split; reflexivity.
    + rewrite html_tag. unfold cls in K |- *. rewrite K.
      change (eqb (lit "supsub") (lit "p")) with false. change (eqb (lit "supsub") (lit "symbol")) with false.
      change (eqb (lit "supsub") (lit "supsub")) with true. cbv iota.
      pose proof (TexFmt.split_two x y Nx Ny) as S2. match goal with |- context [split_s _ ?w] => replace (split_s (lit "&&") w) with [x; y] by (symmetry; exact S2) end. cbv iota.
      unfold copy, has. rewrite (proj1 A). cbn [bind].
      assert (B : element (lit "br") nil nil = Ok (NElem (lit "br") nil nil)) by reflexivity. rewrite B. cbn [bind].
      apply made_fine, element_made.
      * apply wf_set, wf_atts.
      * apply good_class; [now apply ascii_text | exact A].
      * now apply ascii_text.
      * now apply mem_not_In.
      * assert (TX : forall w, xml_text xml_char w -> text_ok xml_char (NText (strip w)) = true).
        { intros w Hw. cbn. apply forallb_forall, Forall_forall. now apply strip_xml. }
        constructor; [now apply TX|]. constructor; [reflexivity|]. constructor; [now apply TX | constructor].
  - inversion G as [| |? G1 G2| |]; subst. clear G.
    assert (W : exists ns, Forall2 (fun x n => html xh x = Ok n) l ns /\ Forall fine ns); [|exact W].
    induction IH as [|x l X L IHl]; [exists nil; split; constructor|].
    apply Forall_cons_iff in G1 as [G1 G1'], G2 as [G2 G2']. destruct (IHl G1' G2') as (ns & R & F). destruct (X G1) as (ms & R1 & F1).
    assert (R2 : exists n, html xh x = Ok n /\ ms = [n]) by (destruct x as [| |l']; [exact R1 | exact R1 | destruct (G2 l' eq_refl)]).
    destruct R2 as (n & R2 & ->). exists (n :: ns). split; constructor; [exact R2 | exact R | now inversion F1 | exact F].
Qed.
(** Forms *)
Lemma own_none k c : own_attributes lower inactive k c nil = nil.
Proof. unfold own_attributes. now destruct (_ && _). Qed.
Lemma html_forms xh name c ns k n o : renders (html xh) c ns -> Forall fine ns -> cls name = Some k -> In (k, (n, o)) elements ->
  html xh (Tag name None c) = Ok (NElem n (class_attr o) (filter not_empty ns)).
Proof.
  intros R F K I. apply kids_renders in R. rewrite html_tag. unfold cls in K |- *. rewrite K. cbn [atts attributes_of].
  assert (T : forallb (text_ok xml_char) (filter not_empty ns) = true).
  { apply forallb_forall. intros x X. apply filter_In in X as [X _]. rewrite Forall_forall in F. exact (F x X). }
  assert (V : forall o, (forall x, o = Some x -> printable x = true) -> forallb (value_ok xml_char) (class_attr o) = true).
  { intros [x|] Hx; [|reflexivity]. cbn. rewrite andb_true_r. apply forallb_forall, Forall_forall. apply ascii_text. now apply Hx. }
  assert (EL : forall nm d m o, xhtml_tag xhtml_tag_arguments xhtml_tag_optionals nm d None = Ok (m, class_attr o) ->
     (forall x, o = Some x -> printable x = true) -> element nm d ns = Ok (NElem m (class_attr o) (filter not_empty ns))).
  { intros nm d m o' X Hx. unfold element, HtmlFmt.element. rewrite X. cbn [bind]. rewrite T, (V o' Hx). reflexivity. }
  assert (G : forall nm d, lookup k html_name = Some nm -> eqb k (lit "p") = false -> eqb k (lit "symbol") = false -> eqb k (lit "supsub") = false ->
     hattrs xh k nil = Ok d -> xhtml_tag xhtml_tag_arguments xhtml_tag_optionals nm d None = Ok (n, class_attr o) ->
     (forall x, o = Some x -> printable x = true) ->
     (if eqb k (lit "p") then do ns <- kids (html xh) c ; element (lower name) nil ns
      else if eqb k (lit "symbol") then
        match c with
        | Text s => let s := if xh then strip s else s in
                    entity entity_name (if xh then match name2codepoint s with Some n => lit "#" ++ str_of_N n | None => s end else s)
        | _ => Raise (if xh then AttributeError else OtherError)
        end
      else if eqb k (lit "supsub") then
        match c with
        | Text s => match split_s (lit "&&") s with
                    | [x; y] => do d <- copy nil ;
                                do br <- element (lit "br") nil nil ;
                                element (lit "span") (set (lit "class") (VStr (lit "supsub")) d)
                                  [NText (strip x); br; NText (strip y)]
                    | _ => Raise TagError
                    end
        | _ => Raise TagError
        end
      else match lookup k html_name with
           | Some n => do d <- hattrs xh k (own_attributes lower inactive k c nil) ; do ns <- kids (html xh) c ; element n d ns
           | None =>
               match lookup k html_heading with
               | Some n => if no_label c nil then do ns <- kids (html xh) c ; element n nil ns else other xh (Tag name None c)
               | None => other xh (Tag name None c)
               end
           end) = Ok (NElem n (class_attr o) (filter not_empty ns))).
  { intros nm d -> -> -> -> H X P. rewrite own_none, H. cbn [bind]. rewrite R. cbn [bind]. now apply EL. }
  unfold elements in I.
  repeat (destruct I as [I|I];
    [assert (Ek := f_equal fst I); assert (En := f_equal (fun e => fst (snd e)) I); assert (Eo := f_equal (fun e => snd (snd e)) I);
     cbn [fst snd] in Ek, En, Eo; clear I; subst k n o;
     first [ destruct xh; (eapply G; [reflexivity | reflexivity | reflexivity | reflexivity | reflexivity | vm_compute; reflexivity
                       | intros x E; first [discriminate E | injection E as <-; reflexivity]])
           | rewrite (class_p _ _ _ K), R; cbn [bind]; change (eqb (lit "p") (lit "p")) with true; cbv iota;
             apply (EL (lit "p") nil (lit "p") None); [vm_compute; reflexivity | discriminate]]|]).
  destruct I.
Qed.
(** html and xhtml *)
Lemma figure_ext d v w ns : wf d ->
  element (lit "figure") (set (lit "class") v (set epub_type w d)) ns = element (lit "figure") (set (lit "class") v d) ns.
Proof.
  intro W. unfold element, HtmlFmt.element.
  rewrite (tag_ext (lit "figure") (lit "figure") (set (lit "class") v (set epub_type w d)) (set (lit "class") v d)); [reflexivity | | | reflexivity |].
  - now apply wf_set, wf_set.
  - now apply wf_set.
  - intros k K. destruct (eqb_spec k (lit "class")) as [->|Nk]; [now rewrite !lookup_set_eq|].
    rewrite !(lookup_set_neq (lit "class")) by congruence. apply lookup_set_neq. intro E. subst k. revert K. now apply mem_not_In.
Qed.
Lemma html_same : forall c, (forall t, without cls [lit "symbol"; lit "panel"] t -> other true t = other false t) ->
  without cls [lit "symbol"; lit "panel"] c -> html true c = html false c /\ kids (html true) c = kids (html false) c.
Proof.
  intros c O. induction c as [t|name a c IH|l IH] using content_ind'; intro Wo.
  - split; reflexivity.
  - pose proof Wo as Wo0. inversion Wo as [|? ? ? N Wc|]; subst. destruct (IH Wc) as [_ K].
    assert (Q : html true (Tag name a c) = html false (Tag name a c)); [|split; [exact Q | cbn [kids]; now rewrite Q]].
    rewrite !html_tag, K, (O _ Wo0). destruct (cls name) as [k|] eqn:C; [|reflexivity]. specialize (N k eq_refl).
    destruct (eqb k (lit "p")); [reflexivity|].
    destruct (eqb_spec k (lit "symbol")) as [->|_]; [exfalso; apply N; now left|].
    destruct (eqb k (lit "supsub")); [reflexivity|].
    destruct (lookup k html_name) as [nm|] eqn:L; [|reflexivity].
    assert (Np : eqb k (lit "panel") = false).
    { destruct (eqb_spec k (lit "panel")) as [->|_]; [exfalso; apply N; right; now left | reflexivity]. }
    unfold hattrs, html_attributes. cbv zeta. rewrite Np.
    destruct (eqb k (lit "body")); [reflexivity|]. destruct (lookup k box_class); [reflexivity|].
    destruct (lookup k figure_class) as [f|] eqn:F; [|reflexivity].
    assert (En : nm = lit "figure").
    { apply lookup_In in F. destruct F as [F|[F|[F|[]]]]; assert (Ek := f_equal fst F); cbn [fst] in Ek; subst k; vm_compute in L; injection L as <-; reflexivity. }
    subst nm. cbn [andb]. destruct (eqb k (lit "marginfigure")); [|reflexivity].
    destruct (copy (own_attributes lower inactive k c (atts a))) as [d|] eqn:D; [|reflexivity]. cbn [bind].
    apply copy_inv in D as [-> _]. destruct (kids (html false) c) as [ns|]; [|reflexivity]. cbn [bind].
    replace (has (lit "class") (set epub_type (VStr (lit "footnote")) (own_attributes lower inactive k c (atts a))))
      with (has (lit "class") (own_attributes lower inactive k c (atts a))) by (unfold has; rewrite lookup_set_neq by discriminate; reflexivity).
    apply figure_ext, wf_own.
  - split; [reflexivity|]. inversion Wo as [| |? Wl]; subst. cbn [kids]. induction IH as [|x l X L IHl]; [reflexivity|].
    apply Forall_cons_iff in Wl as [W1 W2]. cbn [kids_of]. rewrite (proj1 (X W1)).
    rewrite IHl; [reflexivity | constructor; exact W2 | exact W2].
Qed.
(** Attributes *)
Lemma html_attrs xh name a c n e ks :
  cls name = None \/ (exists k, cls name = Some k /\ In k [lit "p"; lit "bold"; lit "italics"; lit "sup"; lit "sub"; lit "verb"; lit "para"; lit "sidenote"]) ->
  html xh (Tag name a c) = Ok (NElem n e ks) ->
  (forall k v, In k (Formats.names xhtml_tag_arguments n ++ Formats.names xhtml_tag_optionals n) -> lookup k (atts a) = Some v -> lookup k e = Some v) /\
  (forall k v, lookup k e = Some v -> lookup k (atts a) = Some v \/ (k = lit "class" /\ n = lit "span" /\ lookup k (atts a) = None)).
Proof.
  intros K H. rewrite html_tag in H.
  assert (E : exists nm ns, element nm (atts a) ns = Ok (NElem n e ks)).
  { destruct K as [K|(k & K & I)]; unfold cls in K, H; rewrite K in H.
    - destruct (kids (html xh) c) as [ns|]; [|discriminate H]. exists (lower name), ns. exact H.
    - destruct (eqb_spec k (lit "p")) as [_|Np]; [destruct (kids (html xh) c) as [ns|]; [|discriminate H]; exists (lower name), ns; exact H|].
      destruct (eqb_spec k (lit "symbol")) as [->|_]; [exfalso; revert I; now apply mem_not_In|].
      destruct (eqb_spec k (lit "supsub")) as [->|_]; [exfalso; revert I; now apply mem_not_In|].
      assert (FB : forallb (fun k => negb (has k figure_class) && negb (has k box_class) && negb (eqb k (lit "body")) && negb (eqb k (lit "panel")) && (eqb k (lit "p") || has k html_name))
         [lit "p"; lit "bold"; lit "italics"; lit "sup"; lit "sub"; lit "verb"; lit "para"; lit "sidenote"] = true) by (vm_compute; reflexivity).
      rewrite forallb_forall in FB. specialize (FB k I). apply andb_true_iff in FB as [FB F5]. apply andb_true_iff in FB as [FB F4].
      apply andb_true_iff in FB as [FB F3]. apply andb_true_iff in FB as [F1 F2].
      destruct (lookup k html_name) as [nm|] eqn:L.
      + unfold hattrs, html_attributes, own_attributes in H. destruct (eqb k (lit "body")); [discriminate F3|]. destruct (eqb k (lit "panel")); [discriminate F4|].
        destruct (has k figure_class) eqn:E1; [discriminate F1|]. unfold has in E1, F2. destruct (lookup k figure_class); [discriminate E1|].
        destruct (lookup k box_class); [discriminate F2|]. cbn [andb bind] in H. destruct (kids (html xh) c) as [ns|]; [|discriminate H]. exists nm, ns. exact H.
      + exfalso. unfold has in F5. rewrite L, orb_false_r in F5. apply eqb_eq in F5. contradiction. }
  destruct E as (nm & ns & E). apply element_inv in E as (m & e' & E & Q). injection Q as <- <- _.
  destruct (tag_spec _ _ _ _ (wf_atts a) E) as (Hn & _ & S). split.
  - intros k v I L. apply S. left. now split.
  - intros k v L. apply S in L as [[_ L]|(P & -> & -> & L)]; [now left|]. right. split; [reflexivity|]. split; [|exact L].
    rewrite Hn. destruct (has nm xhtml_tag_arguments || has nm xhtml_tag_optionals) eqn:A; [|reflexivity]. apply has_permitted in A. contradiction.
Qed.
Lemma html_box xh name a c n e ks k b : cls name = Some k -> In (k, b) box_class ->
  html xh (Tag name a c) = Ok (NElem n e ks) ->
  n = lit "div" /\ lookup (lit "id") e = lookup (lit "id") (atts a) /\
  match lookup (lit "class") (atts a) with
  | Some v => exists x, v = VStr x /\ lookup (lit "class") e = Some (VStr (x ++ lit " " ++ b))
  | None => lookup (lit "class") e = Some (VStr b)
  end.
Proof.
  intros K I H. rewrite html_tag in H. unfold cls in K, H. rewrite K in H.
  assert (E : exists d ns, (do d <- copy (atts a) ;
       match lookup (lit "class") d with
       | Some (VStr x) => Ok (set (lit "class") (VStr (x ++ lit " " ++ b)) d)
       | Some _ => Raise TypeError
       | None => Ok (set (lit "class") (VStr b) d)
       end) = Ok d /\ element (lit "div") d ns = Ok (NElem n e ks)).
  { destruct I as [I|[I|[I|[]]]]; assert (Ek := f_equal fst I); assert (Eb := f_equal snd I); cbn [fst snd] in Ek, Eb; subst k b;
      match type of H with ?L = _ => match L with context [hattrs xh ?k1 ?d1] =>
        change L with (do d <- hattrs xh k1 d1 ; do ns <- kids (html xh) c ; element (lit "div") d ns) in H end end;
      (destruct (hattrs xh _ _) as [d|] eqn:D in H; [|discriminate H]; cbn [bind] in H;
       destruct (kids (html xh) c) as [ns|]; [|discriminate H]; exists d, ns; split; [exact D | exact H]). }
  destruct E as (d & ns & D & E). destruct (copy (atts a)) as [d0|] eqn:C; [|discriminate D]. apply copy_inv in C as [-> _]. cbn [bind] in D.
  apply element_inv in E as (m & e' & E & Q). injection Q as <- <- _.
  assert (D' : exists x, d = set (lit "class") (VStr x) (atts a) /\
     match lookup (lit "class") (atts a) with Some v => exists y, v = VStr y /\ x = y ++ lit " " ++ b | None => x = b end).
  { destruct (lookup (lit "class") (atts a)) as [[y| |]|]; [|discriminate D|discriminate D|]; injection D as <-; eauto. }
  destruct D' as (x & -> & D'). destruct (tag_spec _ _ _ _ (wf_set _ _ _ (wf_atts a)) E) as (Hn & _ & S).
  split; [exact Hn|]. rewrite Hn in S.
  assert (G : forall k, In k [lit "class"; lit "id"] -> lookup k e = lookup k (set (lit "class") (VStr x) (atts a))).
  { intros k0 K0. assert (I0 : In k0 (Formats.names xhtml_tag_arguments (lit "div") ++ Formats.names xhtml_tag_optionals (lit "div"))) by exact K0.
    destruct (lookup k0 (set (lit "class") (VStr x) (atts a))) as [v|] eqn:L.
    - apply S. left. now split.
    - destruct (lookup k0 e) as [v|] eqn:L'; [|reflexivity]. apply S in L' as [[_ L']|(P & _)]; [congruence|].
      exfalso. apply P. apply has_permitted. reflexivity. }
  split.
  - rewrite (G (lit "id")) by (right; now left). apply lookup_set_neq. discriminate.
  - rewrite (G (lit "class")) by now left. rewrite lookup_set_eq. destruct (lookup (lit "class") (atts a)) as [v|].
    + destruct D' as (y & -> & ->). eauto.
    + now subst x.
Qed.
End Html.

(** ** Theorems *)
(** The text of the elements is the text of the content, in its order *)
Theorem C70_text : forall lower uw pv inactive to_float times100 xml_char entity_name name2codepoint other xh,
  let html := html_fmt lower uw pv inactive to_float times100 xml_char entity_name name2codepoint other xh in
  let cls := class_of lower inactive in
  (forall t n s, other xh t = Ok n -> plain cls t s -> text_of n = s) ->
  forall c n s, html c = Ok n -> plain cls c s -> text_of n = s.
Proof.
  intros lower uw pv inactive to_float times100 xml_char entity_name name2codepoint other xh html cls O c n s H P.
  assert (R : renders html c [n]) by (destruct c as [t|m a c|l]; [exists n; auto | exists n; auto | discriminate H]).
  pose proof (html_text lower uw pv inactive to_float times100 xml_char entity_name name2codepoint other xh O c s [n] R P) as T.
  cbn [map concat] in T. now rewrite app_nil_r in T.
Qed.
(** Only elements and attributes of the settings are written *)
Theorem C70_allowed : forall lower uw pv inactive to_float times100 xml_char entity_name name2codepoint other xh,
  let html := html_fmt lower uw pv inactive to_float times100 xml_char entity_name name2codepoint other xh in
  (forall t n, other xh t = Ok n -> everywhere allowed n) ->
  forall c n, html c = Ok n -> everywhere allowed n.
Proof.
  intros lower uw pv inactive to_float times100 xml_char entity_name name2codepoint other xh html O c n H.
  assert (R : renders html c [n]) by (destruct c as [t|m a c|l]; [exists n; auto | exists n; auto | discriminate H]).
  pose proof (html_allowed lower uw pv inactive to_float times100 xml_char entity_name name2codepoint other xh O c [n] R) as T.
  now inversion T.
Qed.
(** Tags with texts of xml are written without an error, whatever their names and their attributes for other uses are *)
Theorem C70_total : forall lower uw pv inactive to_float times100 xml_char entity_name name2codepoint other xh,
  let html := html_fmt lower uw pv inactive to_float times100 xml_char entity_name name2codepoint other xh in
  (forall c, (32 <= c < 127)%N -> xml_char c = true) ->
  (forall s n, name2codepoint s = Some n -> entity_name (strip (lit "#" ++ str_of_N n)) = true) ->
  forall name a c, good (class_of lower inactive) lower (attributes_of uw pv) xml_char entity_name (Tag name a c) ->
  exists n, html (Tag name a c) = Ok n.
Proof.
  intros lower uw pv inactive to_float times100 xml_char entity_name name2codepoint other xh html A C name a c G.
  destruct (html_ok lower uw pv inactive to_float times100 xml_char entity_name name2codepoint other A C xh _ G) as (ns & (n & H & _) & _).
  exists n. exact H.
Qed.
(** The elements of tags without attributes *)
Theorem C70_forms : forall lower uw pv inactive to_float times100 xml_char entity_name name2codepoint other xh,
  let html := html_fmt lower uw pv inactive to_float times100 xml_char entity_name name2codepoint other xh in
  (forall c, (32 <= c < 127)%N -> xml_char c = true) ->
  forall name c ns k n o, renders html c ns -> (forall s, In (NText s) ns -> xml_text xml_char s) ->
    class_of lower inactive name = Some k -> In (k, (n, o)) elements ->
    html (Tag name None c) = Ok (NElem n (class_attr o) (filter (fun x => match x with NText nil => false | _ => true end) ns)).
Proof.
  intros lower uw pv inactive to_float times100 xml_char entity_name name2codepoint other xh html A name c ns k n o R T K I.
  apply (html_forms lower uw pv inactive to_float times100 xml_char entity_name name2codepoint other A xh name c ns k n o R); [|exact K|exact I].
  apply Forall_forall. intros [s|s|m e ks] X; [|reflexivity|reflexivity]. apply T in X. now apply forallb_forall, Forall_forall.
Qed.
(** A symbol is an entity, and in xhtml the number of its character if it is known *)
Theorem C70_symbol : forall lower uw pv inactive to_float times100 xml_char entity_name name2codepoint other name a s,
  let html := html_fmt lower uw pv inactive to_float times100 xml_char entity_name name2codepoint other in
  class_of lower inactive name = Some (lit "symbol") ->
  (forall n, html false (Tag name a (Text s)) = Ok n <-> entity_name (strip s) = true /\ n = NEntity (strip s)) /\
  (forall u n, name2codepoint (strip s) = Some u -> html true (Tag name a (Text s)) = Ok n -> n = NEntity (strip (lit "#" ++ str_of_N u))).
Proof.
  intros lower uw pv inactive to_float times100 xml_char entity_name name2codepoint other name a s html K.
  assert (E : forall xh, html xh (Tag name a (Text s)) = let s := if xh then strip s else s in
     entity entity_name (if xh then match name2codepoint s with Some n => lit "#" ++ str_of_N n | None => s end else s)).
  { intro xh. unfold html. rewrite html_tag, K. reflexivity. }
  split.
  - intro n. rewrite E. cbv zeta iota. unfold entity. cbv zeta. destruct (entity_name (strip s)).
    + split; [intros [= <-]; auto | intros [_ ->]; reflexivity].
    + split; [discriminate | intros [X _]; discriminate X].
  - intros u n U. rewrite E. cbv zeta iota. rewrite U. unfold entity. cbv zeta. destruct (entity_name _); [|discriminate]. now intros [= <-].
Qed.
(** A superscript above a subscript *)
Theorem C70_supsub : forall lower uw pv inactive to_float times100 xml_char entity_name name2codepoint other xh name x y,
  let html := html_fmt lower uw pv inactive to_float times100 xml_char entity_name name2codepoint other xh in
  (forall c, (32 <= c < 127)%N -> xml_char c = true) ->
  class_of lower inactive name = Some (lit "supsub") -> ~ In 38%N x -> ~ In 38%N y -> strip x <> nil -> strip y <> nil ->
  xml_text xml_char x -> xml_text xml_char y ->
  html (Tag name None (Text (x ++ lit "&&" ++ y))) =
    Ok (NElem (lit "span") [(lit "class", VStr (lit "supsub"))] [NText (strip x); NElem (lit "br") nil nil; NText (strip y)]).
Proof.
  intros lower uw pv inactive to_float times100 xml_char entity_name name2codepoint other xh name x y html A K Nx Ny Sx Sy X Y.
  unfold html. rewrite html_tag, K. cbn [attributes_of].
  change (eqb (lit "supsub") (lit "p")) with false. change (eqb (lit "supsub") (lit "symbol")) with false.
  change (eqb (lit "supsub") (lit "supsub")) with true. cbv iota. rewrite (TexFmt.split_two x y Nx Ny).
  change (copy []) with (Ok (@nil (str * aval))). cbn [bind].
  assert (B : element xml_char (lit "br") nil nil = Ok (NElem (lit "br") nil nil)) by reflexivity. rewrite B. cbn [bind].
  unfold element. replace (xhtml_tag _ _ _ _ _) with (Ok (lit "span", [(lit "class", VStr (lit "supsub"))])) by (symmetry; vm_compute; reflexivity).
  cbn [bind]. cbn [filter not_empty]. destruct (strip x) as [|c1 x1] eqn:E1; [contradiction|]. destruct (strip y) as [|c2 y1] eqn:E2; [contradiction|].
  cbn [filter not_empty]. apply strip_xml in X, Y. rewrite E1 in X. rewrite E2 in Y.
  assert (T : forall w, xml_text xml_char w -> text_ok xml_char (NText w) = true) by (intros w Hw; now apply forallb_forall, Forall_forall).
  cbn [forallb]. rewrite (T _ X), (T _ Y). cbn [andb]. change (text_ok xml_char (NElem (lit "br") [] [])) with true. cbn [andb].
  replace (value_ok xml_char _) with true; [reflexivity|]. symmetry. apply forallb_forall. apply Forall_forall. apply (ascii_text _ A). reflexivity.
Qed.
(** A heading without a label has its element (and, with C70_text, its text) *)
Theorem C70_headings : forall lower uw pv inactive to_float times100 xml_char entity_name name2codepoint other xh name a c k n m,
  let html := html_fmt lower uw pv inactive to_float times100 xml_char entity_name name2codepoint other xh in
  class_of lower inactive name = Some k ->
  In (k, n) [(lit "title", lit "h1"); (lit "part", lit "h1"); (lit "chapter", lit "h2"); (lit "section", lit "h3");
             (lit "subsection", lit "h4"); (lit "subsubsection", lit "h5")] ->
  lookup (lit "nolabel") (attributes_of uw pv a) <> None -> (forall s, c = Text s -> strip s <> nil) ->
  html (Tag name a c) = Ok m -> exists e ks ns, m = NElem n e ks /\ renders html c ns /\
    ks = filter (fun x => match x with NText nil => false | _ => true end) ns /\
    lookup (lit "id") e = lookup (lit "id") (attributes_of uw pv a) /\ lookup (lit "class") e = lookup (lit "class") (attributes_of uw pv a).
Proof.
  intros lower uw pv inactive to_float times100 xml_char entity_name name2codepoint other xh name a c k n m html K I L S H.
  unfold html in H. rewrite html_tag in H. rewrite K in H.
  assert (NL : no_label c (attributes_of uw pv a) = true).
  { unfold no_label, has. destruct (lookup (lit "nolabel") (attributes_of uw pv a)); [|contradiction]. destruct c as [s| |]; [|reflexivity|reflexivity].
    destruct (eqb_spec (strip s) nil) as [E|_]; [destruct (S s eq_refl E) | reflexivity]. }
  assert (T : eqb k (lit "p") = false /\ eqb k (lit "symbol") = false /\ eqb k (lit "supsub") = false /\ lookup k html_name = None /\ lookup k html_heading = Some n).
  { repeat (destruct I as [I|I]; [assert (Ek := f_equal fst I); assert (En := f_equal snd I); cbn [fst snd] in Ek, En; subst k n; repeat split; reflexivity|]). destruct I. }
  destruct T as (T1 & T2 & T3 & T4 & T5). rewrite T1, T2, T3, T4, T5, NL in H.
  assert (E : exists ns, kids html c = Ok ns /\ element xml_char n (attributes_of uw pv a) ns = Ok m).
  { fold html in H. destruct (kids html c) as [ns|]; [|discriminate H]. exists ns. split; [reflexivity | exact H]. }
  destruct E as (ns & R & E). apply kids_renders in R. apply element_inv in E as (n' & e & E & ->).
  destruct (tag_spec _ _ _ _ (wf_atts uw pv a) E) as (Hn & _ & SP).
  assert (P : has n xhtml_tag_arguments || has n xhtml_tag_optionals = true /\
     forall k, In k [lit "id"; lit "class"] -> In k (Formats.names xhtml_tag_arguments n ++ Formats.names xhtml_tag_optionals n)).
  { repeat (destruct I as [I|I]; [assert (En := f_equal snd I); cbn [snd] in En; subst n; split; [reflexivity | intros k0 K0; exact K0]|]). destruct I. }
  destruct P as [P1 P2]. rewrite P1 in Hn. subst n'.
  assert (G : forall k, In k [lit "id"; lit "class"] -> lookup k e = lookup k (attributes_of uw pv a)).
  { intros k0 K0. destruct (lookup k0 (attributes_of uw pv a)) as [v|] eqn:L0.
    - apply SP. left. split; [now apply P2 | exact L0].
    - destruct (lookup k0 e) as [v|] eqn:L'; [|reflexivity]. apply SP in L' as [[_ L']|(Q & _)]; [congruence|].
      exfalso. apply Q. now apply has_permitted. }
  exists e, (filter not_empty ns), ns. split; [reflexivity|]. split; [exact R|]. split; [reflexivity|].
  split; apply G; [now left | right; now left].
Qed.
(** The attributes that the element may have are those that are written, and the class is the name of the tag if there is
    no element for it *)
Theorem C70_attributes : forall lower uw pv inactive to_float times100 xml_char entity_name name2codepoint other xh name a c n e ks,
  let html := html_fmt lower uw pv inactive to_float times100 xml_char entity_name name2codepoint other xh in
  let d := attributes_of uw pv a in
  class_of lower inactive name = None \/ (exists k, class_of lower inactive name = Some k /\
    In k [lit "p"; lit "bold"; lit "italics"; lit "sup"; lit "sub"; lit "verb"; lit "para"; lit "sidenote"]) ->
  html (Tag name a c) = Ok (NElem n e ks) ->
  (forall k v, In k (Formats.names xhtml_tag_arguments n ++ Formats.names xhtml_tag_optionals n) -> lookup k d = Some v -> lookup k e = Some v) /\
  (forall k v, lookup k e = Some v -> lookup k d = Some v \/ (k = lit "class" /\ n = lit "span" /\ lookup k d = None)).
Proof. intros *. apply html_attrs. Qed.
(** The class of a box is added to those of the author *)
Theorem C70_boxes : forall lower uw pv inactive to_float times100 xml_char entity_name name2codepoint other xh name a c n e ks k b,
  let html := html_fmt lower uw pv inactive to_float times100 xml_char entity_name name2codepoint other xh in
  let d := attributes_of uw pv a in
  class_of lower inactive name = Some k ->
  In (k, b) [(lit "featurebox", lit "featurebox"); (lit "examplebox", lit "featurebox examplebox"); (lit "problembox", lit "featurebox problembox")] ->
  html (Tag name a c) = Ok (NElem n e ks) ->
  n = lit "div" /\ lookup (lit "id") e = lookup (lit "id") d /\
  match lookup (lit "class") d with
  | Some v => exists x, v = VStr x /\ lookup (lit "class") e = Some (VStr (x ++ lit " " ++ b))
  | None => lookup (lit "class") e = Some (VStr b)
  end.
Proof. intros *. apply html_box. Qed.
(** Without symbols and panels, the elements of html and xhtml are the same *)
Theorem C70_same : forall lower uw pv inactive to_float times100 xml_char entity_name name2codepoint other,
  let html := html_fmt lower uw pv inactive to_float times100 xml_char entity_name name2codepoint other in
  let cls := class_of lower inactive in
  (forall t, without cls [lit "symbol"; lit "panel"] t -> other true t = other false t) ->
  forall c, without cls [lit "symbol"; lit "panel"] c -> html true c = html false c.
Proof. intros * O c W. now apply html_same. Qed.

(** ** Findings *)
Definition no_other : bool -> content -> result node := fun _ _ => Raise OtherError.
Definition ex_html (xh : bool) : content -> result node :=
  html_fmt (fun x => x) (fun _ => false) (fun _ => PStr) nil (fun _ => None) (fun v => v) (fun _ => true) (fun _ => true) (fun _ => None) no_other xh.
(** The class of the author is lost in a figure *)
Theorem C70_figure_class_refuted :
  ~ (forall lower uw pv inactive to_float times100 xml_char entity_name name2codepoint other xh name a c n e ks k x,
       html_fmt lower uw pv inactive to_float times100 xml_char entity_name name2codepoint other xh (Tag name a c) = Ok (NElem n e ks) ->
       class_of lower inactive name = Some k -> In k [lit "marginfigure"; lit "figure"; lit "fullfigure"] ->
       lookup (lit "class") (attributes_of uw pv a) = Some (VStr x) ->
       exists p q, lookup (lit "class") e = Some (VStr (p ++ x ++ q))).
Proof.
  intro H. specialize (H (fun x => x) (fun _ => false) (fun _ => PStr) nil (fun _ => None) (fun v => v) (fun _ => true) (fun _ => true) (fun _ => None) no_other false
    (lit "fig") (Some (lit "[class=wide]")) (Text (lit "a")) (lit "figure") [(lit "class", VStr (lit " figure"))] [NText (lit "a")] (lit "figure") (lit "wide")).
  destruct H as (p & q & H); [vm_compute; reflexivity | vm_compute; reflexivity | right; now left | vm_compute; reflexivity |].
  assert (E : lit " figure" = p ++ lit "wide" ++ q) by (assert (W := f_equal (fun o => match o with Some (VStr y) => y | _ => nil end) H); exact W).
  assert (C : contains (lit " figure") (lit "wide") = true) by (apply contains_iff; now exists p, q). vm_compute in C. discriminate C.
Qed.
(** The class of blocks of verbatim text is not written: they are as verbatim words *)
Theorem C70_verbatim_refuted :
  ~ (forall lower uw pv inactive to_float times100 xml_char entity_name name2codepoint other xh a c n e ks,
       html_fmt lower uw pv inactive to_float times100 xml_char entity_name name2codepoint other xh (Tag (lit "verbatim") a c) = Ok (NElem n e ks) ->
       class_of lower inactive (lit "verbatim") = Some (lit "verb") -> lookup (lit "class") e = Some (VStr (lit "block"))).
Proof.
  intro H. specialize (H (fun x => x) (fun _ => false) (fun _ => PStr) nil (fun _ => None) (fun v => v) (fun _ => true) (fun _ => true) (fun _ => None) no_other false
    None (Text (lit "a")) (lit "code") nil [NText (lit "a")] ltac:(vm_compute; reflexivity) ltac:(vm_compute; reflexivity)). discriminate H.
Qed.
(** Figures in the margin are not marked as footnotes in epubs *)
Theorem C70_footnote_refuted :
  ~ (forall lower uw pv inactive to_float times100 xml_char entity_name name2codepoint other name a c n e ks,
       html_fmt lower uw pv inactive to_float times100 xml_char entity_name name2codepoint other true (Tag name a c) = Ok (NElem n e ks) ->
       class_of lower inactive name = Some (lit "marginfigure") -> lookup epub_type e = Some (VStr (lit "footnote"))).
Proof.
  intro H. specialize (H (fun x => x) (fun _ => false) (fun _ => PStr) nil (fun _ => None) (fun v => v) (fun _ => true) (fun _ => true) (fun _ => None) no_other
    (lit "marginfig") None (Text (lit "a")) (lit "figure") [(lit "class", VStr (lit "marginfig"))] [NText (lit "a")] ltac:(vm_compute; reflexivity) ltac:(vm_compute; reflexivity)).
  vm_compute in H. discriminate H.
Qed.
(** The attributes for the target html are not used *)
Theorem C70_target_refuted :
  ~ (forall lower uw pv inactive to_float times100 xml_char entity_name name2codepoint other name a c n e ks v,
       html_fmt lower uw pv inactive to_float times100 xml_char entity_name name2codepoint other false (Tag name a c) = Ok (NElem n e ks) ->
       class_of lower inactive name = Some (lit "p") ->
       Attributes.pick (attributes_of uw pv a) (Some (lit "html")) (lit "class") = Some v -> lookup (lit "class") e = Some v).
Proof.
  intro H. specialize (H (fun x => x) (fun _ => false) (fun _ => PStr) nil (fun _ => None) (fun v => v) (fun _ => true) (fun _ => true) (fun _ => None) no_other
    (lit "p") (Some (lit "[class.html=big]")) (Text (lit "a")) (lit "p") nil [NText (lit "a")] (VStr (lit "big")) ltac:(vm_compute; reflexivity) ltac:(vm_compute; reflexivity) ltac:(vm_compute; reflexivity)).
  discriminate H.
Qed.
(** A tag that is named as an element with required attributes is an error *)
Theorem C70_total_refuted :
  ~ (forall lower uw pv inactive to_float times100 xml_char entity_name name2codepoint other xh name c,
       (forall c, xml_char c = true) -> class_of lower inactive name = None ->
       exists n, html_fmt lower uw pv inactive to_float times100 xml_char entity_name name2codepoint other xh (Tag name None (Text c)) = Ok n).
Proof.
  intro H. destruct (H (fun x => x) (fun _ => false) (fun _ => PStr) nil (fun _ => None) (fun v => v) (fun _ => true) (fun _ => true) (fun _ => None) no_other false
    (lit "a") (lit "b")) as [n E]; [reflexivity | vm_compute; reflexivity |]. vm_compute in E. discriminate E.
Qed.
(** A body with nested tags, attributes and a box *)
Example C70_ex :
  let c := Tag (lit "body") None (Items [Text (lit "A "); Tag (lit "b") (Some (lit "[id=x]")) (Items [Text (lit "bold "); Tag (lit "i") None (Text (lit "word"))]);
     Tag (lit "supsub") None (Text (lit "1 && 2")); Tag (lit "alert") (Some (lit "[id=y]")) (Text (lit "new"));
     Tag (lit "examplebox") (Some (lit "[class=wide]")) (Text (lit "Done."))]) in
  good (class_of (fun x => x) nil) (fun x => x) (attributes_of (fun _ => false) (fun _ => PStr)) (fun _ => true) (fun _ => true) c /\
  plain (class_of (fun x => x) nil) c (lit "A bold word12newDone.") /\ without (class_of (fun x => x) nil) [lit "symbol"; lit "panel"] c /\
  ex_html false c = Ok (NElem (lit "div") [(lit "class", VStr (lit "body"))]
    [NText (lit "A "); NElem (lit "strong") nil [NText (lit "bold "); NElem (lit "i") nil [NText (lit "word")]];
     NElem (lit "span") [(lit "class", VStr (lit "supsub"))] [NText (lit "1"); NElem (lit "br") nil nil; NText (lit "2")];
     NElem (lit "span") [(lit "id", VStr (lit "y")); (lit "class", VStr (lit "alert"))] [NText (lit "new")];
     NElem (lit "div") [(lit "class", VStr (lit "wide featurebox examplebox"))] [NText (lit "Done.")]]).
Proof.
  cbv zeta. split; [|split; [|split; [|vm_compute; reflexivity]]].
  - assert (X : forall s, xml_text (fun _ => true) s) by (intro s; apply Forall_forall; reflexivity).
    assert (GA : forall a, forallb (fun e => match snd e with VStr _ => negb (eqb (fst e) (lit "self")) | _ => false end) (attributes_of (fun _ => false) (fun _ => PStr) a) = true ->
       good_attributes (fun _ => true) (attributes_of (fun _ => false) (fun _ => PStr) a)).
    { intros a F. rewrite forallb_forall in F. split.
      - destruct (lookup (lit "self") _) eqn:L; [|reflexivity]. apply lookup_In, F in L. cbn [fst snd] in L. destruct a0; [|discriminate L|discriminate L].
        rewrite eqb_refl in L. discriminate L.
      - intros k v _ L. apply lookup_In, F in L. cbn [snd] in L. destruct v; [eauto | discriminate L | discriminate L]. }
    apply go_tag; [right; exists (lit "body"); split; [vm_compute; reflexivity | now left] | apply GA; reflexivity|].
    apply go_items; [|repeat constructor; discriminate].
    constructor; [apply go_text, X|]. constructor.
    { apply go_tag; [right; exists (lit "bold"); split; [vm_compute; reflexivity | apply mem_In; reflexivity] | apply GA; vm_compute; reflexivity|].
      apply go_items; [|repeat constructor; discriminate]. constructor; [apply go_text, X|]. constructor; [|constructor].
      apply go_tag; [right; exists (lit "italics"); split; [vm_compute; reflexivity | apply mem_In; reflexivity] | apply GA; vm_compute; reflexivity | apply go_text, X]. }
    constructor.
    { apply (go_supsub _ _ _ _ _ (lit "supsub") None (lit "1 ") (lit " 2")); [vm_compute; reflexivity | apply GA; reflexivity | now apply mem_not_In | now apply mem_not_In | apply X | apply X]. }
    constructor.
    { apply go_tag; [left; split; [vm_compute; reflexivity|]; split; [apply X | now apply mem_not_In] | apply GA; vm_compute; reflexivity | apply go_text, X]. }
    constructor; [|constructor].
    apply go_tag; [right; exists (lit "examplebox"); split; [vm_compute; reflexivity | apply mem_In; reflexivity] | apply GA; vm_compute; reflexivity | apply go_text, X].
  - apply pl_tag; [vm_compute; discriminate | vm_compute; discriminate|].
    apply (pl_items _ _ [lit "A "; lit "bold word"; lit "12"; lit "new"; lit "Done."]).
    constructor; [apply pl_text|]. constructor.
    { apply pl_tag; [vm_compute; discriminate | vm_compute; discriminate|]. apply (pl_items _ _ [lit "bold "; lit "word"]).
      constructor; [apply pl_text|]. constructor; [|constructor]. apply pl_tag; [vm_compute; discriminate | vm_compute; discriminate | apply pl_text]. }
    constructor.
    { apply (pl_supsub _ (lit "supsub") None (lit "1 ") (lit " 2")); [vm_compute; reflexivity | now apply mem_not_In]. }
    constructor; [apply pl_tag; [vm_compute; discriminate | vm_compute; discriminate | apply pl_text]|].
    constructor; [apply pl_tag; [vm_compute; discriminate | vm_compute; discriminate | apply pl_text] | constructor].
  - assert (W : forall name a c k, class_of (fun x => x) nil name = k -> match k with Some k => negb (mem k [lit "symbol"; lit "panel"]) | None => true end = true ->
       without (class_of (fun x => x) nil) [lit "symbol"; lit "panel"] c -> without (class_of (fun x => x) nil) [lit "symbol"; lit "panel"] (Tag name a c)).
    { intros name a c k K M Wc. constructor; [|exact Wc]. intros k' K'. rewrite K in K'. rewrite K' in M. apply mem_not_In. destruct (mem k' [lit "symbol"; lit "panel"]); [discriminate M | reflexivity]. }
    apply (W _ _ _ (Some (lit "body"))); [vm_compute; reflexivity | vm_compute; reflexivity |].
    apply wo_items. constructor; [apply wo_text|]. constructor.
    { apply (W _ _ _ (Some (lit "bold"))); [vm_compute; reflexivity | vm_compute; reflexivity |]. apply wo_items. constructor; [apply wo_text|]. constructor; [|constructor].
      apply (W _ _ _ (Some (lit "italics"))); [vm_compute; reflexivity | vm_compute; reflexivity | apply wo_text]. }
    constructor; [apply (W _ _ _ (Some (lit "supsub"))); [vm_compute; reflexivity | vm_compute; reflexivity | apply wo_text]|].
    constructor; [apply (W _ _ _ (None)); [vm_compute; reflexivity | vm_compute; reflexivity | apply wo_text]|].
    constructor; [apply (W _ _ _ (Some (lit "examplebox"))); [vm_compute; reflexivity | vm_compute; reflexivity | apply wo_text] | constructor].
Qed.

(** C76: references, links to the next and previous documents, and links to the other files of a document. *)
From Coq Require Import List Bool Arith NArith Lia.
From Verif.Base Require Import Str StrFacts Dict DictFacts Result PurePath.
From Verif.Model Require Import DictUtils Macros Paths Labels Ref Attributes Formats Typography TagParser Width TexFmt HtmlFmt TagTree AutoLabels LabelTags Links.
From Verif.Spec Require Import Paths Labels Ref LabelTags Links.
From Verif.Proof Require Import Paths Attributes Formats.
From Verif.Props Require Import Ref LabelTags.
From Verif.Spec Require Attributes Formats HtmlFmt.
From Verif.Props Require Attributes HtmlFmt Paths.
Import ListNotations.

(** ** The link in tex *)
Lemma href_written uw pv u x : u <> [] -> (forall c, In c u -> Spec.Attributes.good_pos_char c) -> pv u = PStr ->
  href_tex uw pv u x = Ok (lit "\href{" ++ u ++ lit "}{" ++ x ++ lit "}").
Proof.
  intros Hu Hg Hp. destruct u as [|c0 u0] eqn:Eu; [now elim Hu|]. rewrite <- Eu in *. clear Hu.
  assert (E : href_tex uw pv u x = tex_cmd tex_cmd_arguments tex_cmd_optionals (lit "href") (load uw pv nil (u ++ lit ".tex")) (Some x) None)
    by (rewrite Eu; reflexivity).
  rewrite E. clear E.
  assert (Kt : Spec.Attributes.known_target (lit "tex")) by (unfold Spec.Attributes.known_target; cbn; tauto).
  set (k := Spec.Attributes.for_target u (lit "tex")). assert (Ek : u ++ lit ".tex" = k) by reflexivity. rewrite Ek.
  assert (Sk : strip_attr k = u) by now apply strip_attr_for_target.
  assert (El : load uw pv nil k = [(k, VPos PStr)]).
  { change k with (html [(k, VPos PStr)]) at 1. apply Props.Attributes.C03_html_round_trip.
    - unfold wf. cbn [keys map fst]. constructor; [intros []|constructor].
    - constructor; [|constructor]. split; [unfold k, Spec.Attributes.for_target; destruct u; discriminate|]. split.
      + intros c I. unfold k, Spec.Attributes.for_target in I. apply in_app_iff in I as [I|I]; [now apply Hg|].
        cbn in I. repeat (destruct I as [<-|I]; [split; [reflexivity|cbn; intuition discriminate]|]). destruct I.
      + intros b [[Pk _]|(t & Ht & Et)].
        * exfalso. apply (Pk u (lit "tex") Kt). reflexivity.
        * assert (strip_attr k = b) by (rewrite Et; now apply strip_attr_for_target). congruence. }
  rewrite El. unfold tex_cmd, tex_params.
  change (lookup (lit "href") tex_cmd_arguments) with (Some [RPos PStr]).
  change (lookup (lit "href") tex_cmd_optionals) with (@None (list areq)).
  change (negb (has (lit "href") tex_cmd_arguments) && negb (has (lit "href") tex_cmd_optionals)) with false. cbv iota.
  set (d := [(k, VPos PStr)]) in *.
  assert (F1 : find_item d (RPos PStr) (Some (lit "tex")) = Some (k, VPos PStr)).
  { unfold find_item. change (norm_target (Some (lit "tex"))) with (Some (lit "tex")). cbv iota beta.
    unfold d. cbn [lookup]. destruct (eqb_spec (join sep [areq_str (RPos PStr); lit "tex"]) k) as [Q|_]; [now rewrite Q|].
    cbn [filter snd]. change (subclass PStr PStr) with true. cbv iota zeta.
    change (lit "tex") with [116%N; 101%N; 120%N]. cbv iota beta. cbn [filter fst]. destruct (endswith _ _); reflexivity. }
  assert (F : filter_attrs d (Some [RPos PStr]) (Some (lit "tex")) true true = Ok [(u, VPos PStr)]).
  { unfold filter_attrs. change (norm_target (Some (lit "tex"))) with (Some (lit "tex")).
    change (ListUtils.uniq [RPos PStr]) with [RPos PStr]. cbv zeta. cbv iota.
    change (filter_removed [RPos PStr] (Some (lit "tex"))) with (@nil areq).
    change (filter (fun a : areq => negb (mem a [])) [RPos PStr]) with [RPos PStr]. cbn [fold_left].
    rewrite F1. change (set k (VPos PStr) []) with d. unfold strip_attrs, copy.
    assert (Hs : has (lit "self") d = false).
    { unfold has, d. cbn [lookup]. destruct (eqb_spec (lit "self") k) as [Q|_]; [|reflexivity]. exfalso.
      assert (I : In 46%N k) by (unfold k, Spec.Attributes.for_target; apply in_or_app; right; now left). rewrite <- Q in I. cbn in I. intuition discriminate. }
    rewrite Hs. cbn [bind d keys map fst filter].
    assert (Nk : eqb k u = false) by (apply eqb_neq; intros Q; exact (for_target_neq u (lit "tex") Q)).
    unfold is_target_specific. rewrite Sk, Nk. cbn [negb map filter mem existsb]. rewrite Sk, Nk. cbn [orb negb fold_left].
    unfold d. cbn [lookup]. rewrite eqb_refl, Sk. reflexivity. }
  rewrite F. cbn [bind length Nat.eqb]. unfold tex_arguments, tex_arg. cbn [map concat fst snd indented]. rewrite !app_nil_r.
  f_equal. rewrite <- !app_assoc. reflexivity.
Qed.

(** ** References *)
Section References.
Variables (lower : str -> str) (uw : char -> bool) (pv : str -> ptype) (inactive : list str).
Variables (verbatim untouched : str -> bool).
Variables (to_float : str -> option num) (times100 : num -> num) (xml_char : char -> bool) (entity_name : str -> bool)
          (name2codepoint : str -> option N) (block : TagParser.content -> bool).
Variables (other_tex : bool -> TagParser.content -> result str) (other_html : bool -> TagParser.content -> result node).
Variables (title : label -> str) (misc : lobj -> str -> option lobj) (repr : lobj -> str).
Variable rounds : nat.
Variables (fmts : dict str str) (context : dict str lobj).
Variables (cwd : list str) (e : Labels.env) (o : owner) (m : manager).
Notation ref_text := (ref_text uw verbatim untouched title misc repr rounds fmts context e m).
Notation ref_content := (ref_content uw verbatim untouched title misc repr rounds fmts context e m).
Notation ref_tex := (ref_tex lower uw pv inactive verbatim untouched block other_tex title misc repr rounds fmts context cwd e o m).
Notation ref_html := (ref_html lower uw pv inactive verbatim untouched to_float times100 xml_char entity_name name2codepoint other_html title misc repr rounds fmts context cwd e o m).
Notation ref_html_of := (ref_html_of lower uw pv inactive verbatim untouched to_float times100 xml_char entity_name name2codepoint other_html title misc repr rounds fmts context cwd e o m).
Notation step_html := (step_html lower uw pv inactive verbatim untouched to_float times100 xml_char entity_name name2codepoint other_html title misc repr rounds fmts context cwd e o m).
Notation nodes := (nodes lower uw pv inactive to_float times100 xml_char entity_name name2codepoint other_html).

Lemma ref_content_text t c : ref_content t c = (do l <- ref_label e c m ; ref_text t l).
Proof. reflexivity. Qed.
Lemma ref_of_html xh d l r : wf d -> ref_html_of xh d l = Ok r ->
  exists u c ns at_, url cwd o (method xh) (l_content l) l = Ok u /\ ref_text (lit "html") l = Ok c /\ nodes xh c = Ok ns /\
    r = NElem (lit "a") at_ (filter not_empty ns) /\ lookup (lit "href") at_ = Some (VStr u) /\ lookup (lit "class") at_ = Some (VStr (lit "ref")).
Proof.
  intros W E. unfold Model.Links.ref_html_of in E.
  destruct (ref_text (lit "html") l) as [c|] eqn:Ec; [|discriminate]. cbn [bind] in E.
  destruct (nodes xh c) as [ns|] eqn:En; [|discriminate]. cbn [bind] in E.
  unfold copy in E. destruct (has (lit "self") d); [discriminate|]. cbn [bind] in E.
  destruct (url cwd o (method xh) (l_content l) l) as [u|] eqn:Eu; [|discriminate]. cbn [bind] in E.
  apply HtmlFmt.element_inv in E as (n & at_ & X & ->).
  assert (W' : wf (set (lit "href") (VStr u) (set (lit "class") (VStr (lit "ref")) d))) by (apply wf_set, wf_set, W).
  destruct (HtmlFmt.tag_spec _ _ _ _ W' X) as (Hn & _ & Ha). change (n = lit "a") in Hn. subst n.
  exists u, c, ns, at_. split; [reflexivity|]. split; [reflexivity|]. split; [exact En|]. split; [reflexivity|].
  split; apply Ha; left; (split; [apply mem_In; reflexivity|]).
  - apply lookup_set_eq.
  - rewrite lookup_set_neq by discriminate. apply lookup_set_eq.
Qed.

(** In html, a reference is a link with the url of the reference (C63: it leads to the label), of the class ref, that
    shows the text of the reference (C75) *)
Theorem C76_html : forall xh d c r, wf d -> ref_html xh d c = Ok r ->
  exists u t ns at_, ref_url cwd e o (method xh) c m = Ok u /\ ref_content (lit "html") c = Ok t /\ nodes xh t = Ok ns /\
    r = NElem (lit "a") at_ (filter not_empty ns) /\ lookup (lit "href") at_ = Some (VStr u) /\ lookup (lit "class") at_ = Some (VStr (lit "ref")).
Proof.
  intros xh d c r W E. unfold Model.Links.ref_html in E. destruct (ref_label e c m) as [l|] eqn:El; [|discriminate]. cbn [bind] in E.
  destruct (ref_of_html xh d l r W E) as (u & t & ns & at_ & H1 & H2 & H3 & H4).
  exists u, t, ns, at_. unfold ref_url. rewrite ref_content_text, El. cbn [bind]. auto.
Qed.
(** The link is made, if the url and the text are there and can be written in xml *)
Theorem C76_html_made : forall xh d c u t ns, wf d -> lookup (lit "self") d = None ->
  (forall k v, In k [lit "role"; epub_type] -> lookup k d = Some v -> exists x, v = VStr x /\ Spec.HtmlFmt.xml_text xml_char x) ->
  Spec.HtmlFmt.xml_text xml_char u -> Spec.HtmlFmt.xml_text xml_char (lit "ref") -> Forall (fun n => text_ok xml_char n = true) ns ->
  ref_url cwd e o (method xh) c m = Ok u -> ref_content (lit "html") c = Ok t -> nodes xh t = Ok ns ->
  exists r, ref_html xh d c = Ok r.
Proof.
  intros xh d c u t ns W Hs Hk Xu Xr Fn Hu Ht Hn. unfold Model.Links.ref_html, Model.Links.ref_html_of. unfold ref_url in Hu. rewrite ref_content_text in Ht.
  destruct (ref_label e c m) as [l|]; [|discriminate]. cbn [bind] in *. rewrite Ht. cbn [bind]. rewrite Hn. cbn [bind].
  unfold copy, has. rewrite Hs. cbn [bind]. rewrite Hu. cbn [bind].
  set (d' := set (lit "href") (VStr u) (set (lit "class") (VStr (lit "ref")) d)).
  assert (W' : wf d') by (apply wf_set, wf_set, W).
  assert (V : forall k v, In k (Spec.Formats.names xhtml_tag_arguments (lit "a") ++ Spec.Formats.names xhtml_tag_optionals (lit "a")) ->
    lookup k d' = Some v -> exists x, v = VStr x /\ Spec.HtmlFmt.xml_text xml_char x).
  { intros k v K L. change (In k [lit "href"; lit "class"; lit "role"; epub_type]) in K. destruct K as [<-|[<-|K]].
    - unfold d' in L. rewrite lookup_set_eq in L. exists u. split; [congruence|exact Xu].
    - unfold d' in L. rewrite lookup_set_neq, lookup_set_eq in L by discriminate. exists (lit "ref"). split; [congruence|exact Xr].
    - apply (Hk k v); [exact K|]. unfold d' in L. rewrite !lookup_set_neq in L; [exact L| |];
        (destruct K as [<-|[<-|[]]]; discriminate). }
  destruct (HtmlFmt.tag_made (lit "a") d' W') as (n & at_ & X).
  - intros k K. change (In k [lit "href"]) in K. destruct K as [<-|[]]. unfold d'. rewrite lookup_set_eq. discriminate.
  - cbv zeta. change (has (lit "a") xhtml_tag_arguments || has (lit "a") xhtml_tag_optionals) with true. cbv iota.
    intros k v K L. destruct (V k v K L) as (x & -> & _). eauto.
  - unfold element. rewrite X. cbn [bind]. destruct (HtmlFmt.tag_spec _ _ _ _ W' X) as (En & _ & S). change (n = lit "a") in En. subst n.
    replace (forallb (text_ok xml_char) (filter not_empty ns)) with true.
    2:{ symmetry. apply forallb_forall. intros x I. apply filter_In in I as [I _]. rewrite Forall_forall in Fn. now apply Fn. }
    replace (forallb (value_ok xml_char) at_) with true; [cbn [andb]; eexists; reflexivity|].
    symmetry. apply forallb_forall. intros [k v] I. apply In_lookup in I; [|exact (HtmlFmt.tag_wf _ _ _ _ X)].
    apply S in I as [[I L]|(P & _)].
    + destruct (V k v I L) as (x & -> & Q). cbn. now apply forallb_forall, Forall_forall.
    + exfalso. apply P. apply has_permitted. reflexivity.
Qed.

(** In tex, it is the command href with the url for the pdf file, if the url has no white space, commas, brackets,
    quotes and equal signs; a reference to the document itself is its text *)
Theorem C76_tex : forall c u t x,
  ref_url cwd e o (lit ".pdf") c m = Ok u -> ref_content (lit "tex") c = Ok t ->
  TexFmt.tex_fmt lower uw pv inactive block other_tex false t = Ok x ->
  (forall y, In y u -> Spec.Attributes.good_pos_char y) -> pv u = PStr ->
  ref_tex c = Ok (match u with [] => x | _ => lit "\href{" ++ u ++ lit "}{" ++ x ++ lit "}" end).
Proof.
  intros c u t x Hu Ht Hx Hg Hp. unfold Model.Links.ref_tex, ref_tex_of. unfold ref_url in Hu. rewrite ref_content_text in Ht.
  destruct (ref_label e c m) as [l|]; [|discriminate]. cbn [bind] in *. rewrite Ht. cbn [bind]. rewrite Hx. cbn [bind]. rewrite Hu. cbn [bind].
  destruct u as [|y u]; [reflexivity|]. apply href_written; [discriminate|exact Hg|exact Hp].
Qed.

(** ** The next and the previous document *)
(** A link to the label of the entry in html; nothing if there is no such document *)
Theorem C76_step : forall d, wf d ->
  (forall l r, step_html (Some (Some l)) d = Ok r ->
     exists u t ns at_, url cwd o (lit "html") (l_content l) l = Ok u /\ ref_text (lit "html") l = Ok t /\ nodes false t = Ok ns /\
       r = SNode (NElem (lit "a") at_ (filter not_empty ns)) /\ lookup (lit "href") at_ = Some (VStr u) /\ lookup (lit "class") at_ = Some (VStr (lit "ref"))) /\
  step_html None d = Ok (STxt []) /\ step_html (Some None) d = Ok (STxt []).
Proof.
  intros d W. split; [|split; reflexivity]. intros l r E. cbn [Model.Links.step_html] in E.
  destruct (ref_html_of false d l) as [n|] eqn:En; [|discriminate]. cbn [bind] in E. apply (f_equal (fun x => match x with Ok y => y | Raise _ => STxt nil end)) in E.
  cbv beta iota in E. subst r. destruct (ref_of_html false d l n W En) as (u & t & ns & at_ & H1 & H2 & H3 & -> & H5).
  exists u, t, ns, at_. auto 10.
Qed.
End References.

(** Together with C63: the link of a reference in html leads to its label *)
Theorem C76_leads : forall lower uw pv inactive verbatim untouched to_float times100 xml_char entity_name name2codepoint other_html title misc repr rounds fmts context,
  forall h e docs own cwd d id c x y l xh at_d r,
  plain_names cwd -> ~ In (lit "..") cwd -> sep_of (e_sep e) <> nil -> NoDup (map d_id docs) -> In own docs -> In d docs ->
  names_both (sep_of (e_sep e)) (strip c) (d_id d) id -> In l (project_labels e h) -> l_doc l = d_id d -> l_id l = id ->
  d_file d (lit "." ++ method xh) = Some x -> d_file own (lit "." ++ method xh) = Some y ->
  (exists r s, x = Target r (method xh) s) -> plain_names (parts (full x)) -> plain_names (parts (full y)) -> wf at_d ->
  ref_html lower uw pv inactive verbatim untouched to_float times100 xml_char entity_name name2codepoint other_html title misc repr rounds fmts context
    cwd e {| o_id := d_id own; o_doc := own; o_docs := docs |} (run h) xh at_d c = Ok r ->
  exists at_ ns u, r = NElem (lit "a") at_ ns /\ lookup (lit "href") at_ = Some (VStr u) /\
    leads_to cwd (full y) u (full x) (if l_content l then Some id else None).
Proof.
  intros. match goal with H : ref_html _ _ _ _ _ _ _ _ _ _ _ _ _ _ _ _ _ _ _ _ _ _ _ _ _ = Ok r |- _ => apply C76_html in H as (u & t & ns & at_ & Hu & _ & _ & Hr & Hh & _); [|assumption] end.
  assert (Hd : startswith (method xh) (lit ".") = false) by (destruct xh; reflexivity).
  edestruct (C63_reference h e docs own cwd d id c x y (method xh) l) as (u' & Eu & Hl); try eassumption.
  assert (u = u') by congruence. subst u'. eauto 10.
Qed.

(** ** Other files *)
Lemma escape_read x : html_text (escape x) x.
Proof.
  unfold escape. induction x as [|c x IH]; [constructor|]. cbn [flat_map]. unfold escape_char at 1.
  destruct (N.eqb_spec c 38) as [->|N1]; [now constructor|]. destruct (N.eqb_spec c 60) as [->|N2]; [now constructor|].
  destruct (N.eqb_spec c 62) as [->|N3]; [now constructor|]. destruct (N.eqb_spec c 34) as [->|N4]; [now constructor|].
  destruct (N.eqb_spec c 39) as [->|N5]; [now constructor|]. apply ht_char; [|exact IH].
  intros [<-|[<-|[<-|[<-|[<-|[]]]]]]; congruence.
Qed.
Lemma text_read w x y : html_text w x -> html_text w y -> x = y.
Proof.
  intros H. revert y. induction H as [|c w x Hc H IH|w x H IH|w x H IH|w x H IH|w x H IH|w x H IH]; intros y Hy.
  - inversion Hy. reflexivity.
  - inversion Hy; subst; [f_equal; now apply IH|exfalso; apply Hc; cbn; tauto ..].
  - inversion Hy; subst; [exfalso; match goal with Q : ~ In 38%N _ |- _ => apply Q; cbn; tauto end|f_equal; now apply IH].
  - inversion Hy; subst; [exfalso; match goal with Q : ~ In 38%N _ |- _ => apply Q; cbn; tauto end|f_equal; now apply IH].
  - inversion Hy; subst; [exfalso; match goal with Q : ~ In 38%N _ |- _ => apply Q; cbn; tauto end|f_equal; now apply IH].
  - inversion Hy; subst; [exfalso; match goal with Q : ~ In 38%N _ |- _ => apply Q; cbn; tauto end|f_equal; now apply IH].
  - inversion Hy; subst; [exfalso; match goal with Q : ~ In 38%N _ |- _ => apply Q; cbn; tauto end|f_equal; now apply IH].
Qed.
Lemma relpath_url cwd a b : (forall n, In n cwd -> n <> nil /\ n <> lit "." /\ ~ In 47%N n) -> wf_path a -> wf_path b ->
  relative_url cwd (Plain b) a = relpath cwd b (path_parent a) /\ relpath cwd b (path_parent a) <> nil.
Proof.
  intros C Wa Wb. unfold relative_url. cbn [full].
  pose proof (Props.Paths.abs_parts_names cwd _ Wb C) as Nl. unfold relpath.
  set (s := abs_parts cwd (path_parent a)) in *. set (l := abs_parts cwd b) in *. clearbody s l.
  set (r := repeat (lit "..") (length s - common s l) ++ skipn (common s l) l).
  assert (Rr : forall y, In y r -> y <> nil /\ ~ In 47%N y).
  { intros y Hy. unfold r in Hy. apply in_app_or in Hy as [Hy|Hy].
    - apply repeat_spec in Hy. subst y. split; [discriminate|]. vm_compute. intuition discriminate.
    - assert (I : In y l) by (rewrite <- (firstn_skipn (common s l) l); apply in_or_app; now right). destruct (Nl y I) as ((? & ? & ?) & ?). auto. }
  destruct r as [|y r'] eqn:Er; [split; [reflexivity|discriminate]|]. split.
  - rewrite <- Er in *. unfold clean_url. rewrite join_last by exact Rr. now rewrite dbl_slash_id by (apply join_no_dbl; auto).
  - destruct (Rr y (or_introl eq_refl)) as [Ny _]. destruct r' as [|z r']; [exact Ny|]. rewrite join_cons by discriminate. destruct y; [now elim Ny|discriminate].
Qed.
Lemma target_spec f t : complete f -> exists o, target_path_of f t = Ok o /\ forall p, o = Some p <-> made_for f t p.
Proof.
  intros C. unfold target_path_of, made_for. destruct (mem t (f_targets f)) eqn:M.
  - apply mem_In in M. specialize (C t M). destruct (f_file f t) as [q|]; [|now elim C]. exists (Some q). split; [reflexivity|]. intros p. tauto.
  - apply mem_not_In in M. exists None. split; [reflexivity|]. intros p. split; [discriminate|]. intros [H _]. contradiction.
Qed.
Lemma other_spec f root k : complete f -> (forall r, root = Some r -> complete r) ->
  exists o, other_path f root k = Ok o /\ forall p, o = Some p <-> leads_for f root k p.
Proof.
  intros C R. destruct k; cbn [other_path leads_for]; try now apply target_spec.
  - eexists. split; [reflexivity|]. reflexivity.
  - destruct root as [r|].
    + destruct (target_spec r (lit ".epub") (R r eq_refl)) as (o & E & S). exists o. split; [exact E|]. intros p. rewrite S.
      split; [eauto|]. intros (r' & [= <-] & H). exact H.
    + exists None. split; [reflexivity|]. intros p. split; [discriminate|]. intros (r & Q & _). discriminate Q.
Qed.

(** The link, as a reader of html takes it, leads from the file of the document to the other file.  There is no link to
    the file itself, and none to files that are not made. *)
Theorem C76_other : forall cwd f root k this,
  (forall n, In n cwd -> n <> nil /\ n <> lit "." /\ ~ In 47%N n) -> ~ In (lit "..") cwd ->
  complete f -> (forall r, root = Some r -> complete r) ->
  (forall a b, made_for f this a -> leads_for f root k b -> a <> b -> wf_path a -> wf_path b ->
     exists w x, other_relpath cwd f root k this = Ok w /\ html_text w x /\ (forall y, html_text w y -> y = x) /\ x <> [] /\
       follow (location cwd (path_parent a)) x = location cwd b) /\
  (forall a, made_for f this a -> leads_for f root k a -> other_relpath cwd f root k this = Ok []) /\
  ((forall b, ~ leads_for f root k b) \/ (forall a, ~ made_for f this a) -> other_relpath cwd f root k this = Ok []).
Proof.
  intros cwd f root k this C C2 Cf Cr. unfold other_relpath.
  destruct (target_spec f this Cf) as (oa & Ea & Sa). destruct (other_spec f root k Cf Cr) as (ob & Eb & Sb). rewrite Ea, Eb. cbn [bind].
  split; [|split].
  - intros a b Ha Hb N Wa Wb. apply Sa in Ha. apply Sb in Hb. subst oa ob. rewrite (proj2 (eqb_neq a b) N).
    destruct (relpath_url cwd a b C Wa Wb) as [Eu Nu]. eexists _, (relpath cwd b (path_parent a)). split; [reflexivity|].
    split; [apply escape_read|]. split; [intros y Hy; exact (text_read _ _ _ Hy (escape_read _))|]. split; [exact Nu|].
    rewrite <- Eu. exact (Props.Paths.C39_relative cwd (Plain b) a C C2 Wb Wa).
  - intros a Ha Hb. apply Sa in Ha. apply Sb in Hb. subst oa ob. now rewrite eqb_refl.
  - intros [H|H].
    + destruct ob as [b|]; [exfalso; apply (H b), Sb; reflexivity|]. destruct oa; reflexivity.
    + destruct oa as [a|]; [exfalso; apply (H a), Sa; reflexivity|]. reflexivity.
Qed.

(** ** Findings *)
Definition ex_doc : document := {| d_id := lit "a.dm"; d_file := fun _ => None |}.
Definition ex_owner : owner := {| o_id := lit "a.dm"; o_doc := ex_doc; o_docs := [ex_doc] |}.
(** The id of a label may have a space, as in @figure[id='my fig'].  The link in tex then leads somewhere else. *)
Definition ex_space : list op := [OAdd (lit "my fig") (Some [lit "caption"; lit "figure"]) true None (Some (lit "a.dm"))].
Theorem C76_tex_refuted :
  ~ (forall uw pv cwd e o c m u x, ref_url cwd e o (lit ".pdf") c m = Ok u -> pv u = PStr -> u <> [] ->
       href_tex uw pv u x = Ok (lit "\href{" ++ u ++ lit "}{" ++ x ++ lit "}")).
Proof.
  intros H. specialize (H (fun _ => false) (fun _ => PStr) nil ex_env ex_owner (lit "my fig") (run ex_space) (lit "#my fig") (lit "Fig. 1") eq_refl eq_refl ltac:(discriminate)).
  vm_compute in H. discriminate H.
Qed.
Example C76_tex_space : href_tex (fun _ => false) (fun _ => PStr) (lit "#my fig") (lit "Fig. 1") = Ok (lit "\href{fig}{Fig. 1}").
Proof. vm_compute. reflexivity. Qed.
(** There is no default format of references (ref.py:227) *)
Theorem C76_default_refuted :
  ~ (forall e m c l, ref_label e c m = Ok l -> exists x, ref_default e m c = Ok x).
Proof.
  intros H. specialize (H ex_env (run ex_history) (lit "s2") ex_label). destruct H as [x H]; [vm_compute; reflexivity|]. vm_compute in H. discriminate H.
Qed.
(** The links to the next and previous documents are html in tex files (navigation.py:116, 172) *)
Theorem C76_step_tex_refuted :
  ~ (forall lower uw pv inactive verbatim untouched to_float times100 xml_char entity_name name2codepoint other_html title misc repr rounds fmts context cwd e o m entry d r,
       step_tex lower uw pv inactive verbatim untouched to_float times100 xml_char entity_name name2codepoint other_html title misc repr rounds fmts context cwd e o m entry d = Ok r ->
       exists x, r = STxt x).
Proof.
  intros H. specialize (H (fun x => x) (fun _ => false) (fun _ => PStr) nil (fun _ => false) (fun _ => false) (fun _ => None) (fun x => x) (fun _ => true) (fun _ => true)
    (fun _ => None) (fun _ _ => Raise OtherError) ex_title (fun _ _ => None) (fun _ => nil) 2 default_fmts nil nil ex_env ex_owner (run ex_history) (Some (Some ex_label)) nil).
  destruct (H _ eq_refl) as [x Q]. vm_compute in Q. discriminate Q.
Qed.
(** and cannot be made in xhtml (navigation.py:133-134, 189-190) *)
Theorem C76_step_xhtml_refuted : ~ exists r, step_xhtml = Ok r.
Proof. intros [r H]. discriminate H. Qed.
(** As a text of an element, the links to other files are escaped twice: the text is not the path *)
Definition ex_files : files :=
  {| f_targets := [lit ".html"; lit ".pdf"];
     f_file := fun t => if eqb t (lit ".html") then Some (of_str (lit "/p/html/q&a.html")) else if eqb t (lit ".pdf") then Some (of_str (lit "/p/pdf/q&a.pdf")) else None;
     f_src := Some (of_str (lit "/p/src/q&a.dm")) |}.
Theorem C76_other_text_refuted :
  ~ (forall cwd f root k this a b w, made_for f this a -> leads_for f root k b -> a <> b -> wf_path a -> wf_path b -> ~ In (lit "..") cwd ->
       other_relpath cwd f root k this = Ok w -> follow (location cwd (path_parent a)) w = location cwd b).
Proof.
  intros H. specialize (H [] ex_files None Pdflink (lit ".html") (of_str (lit "/p/html/q&a.html")) (of_str (lit "/p/pdf/q&a.pdf")) (lit "../pdf/q&amp;a.pdf")).
  assert (Q : follow (location [] (path_parent (of_str (lit "/p/html/q&a.html")))) (lit "../pdf/q&amp;a.pdf") = location [] (of_str (lit "/p/pdf/q&a.pdf"))).
  { apply H; [split; [now left|reflexivity]|split; [right; now left|reflexivity]|vm_compute; discriminate|apply of_str_wf|apply of_str_wf|intros []|vm_compute; reflexivity]. }
  vm_compute in Q. discriminate Q.
Qed.

(** ** Example *)
Example C76_ex :
  complete ex_files /\ other_relpath [] ex_files None Srclink (lit ".html") = Ok (lit "../src/q&amp;a.dm") /\
  ref_tex (fun x => x) (fun _ => false) ex_pv nil (fun _ => false) (fun _ => false) (fun _ => false) (fun _ _ => Ok nil) ex_title
    (fun _ _ => None) (fun _ => nil) 2 default_fmts nil [] ex_env ex_owner (run ex_history) (lit "f1") = Ok (lit "\href{#f1}{\textbf{Fig. 1}}") /\
  ref_html (fun x => x) (fun _ => false) ex_pv nil (fun _ => false) (fun _ => false) (fun _ => None) (fun x => x) (fun _ => true) (fun _ => true)
    (fun _ => None) (fun _ _ => Raise OtherError) ex_title (fun _ _ => None) (fun _ => nil) 2 default_fmts nil [] ex_env ex_owner (run ex_history) false nil (lit " s2 ") =
  Ok (NElem (lit "a") [(lit "href", VStr (lit "#s2")); (lit "class", VStr (lit "ref"))] [NText (lit "Two")]).
Proof.
  split; [|split; [|split]]; try (vm_compute; reflexivity).
  intros t [<-|[<-|[]]]; vm_compute; discriminate.
Qed.

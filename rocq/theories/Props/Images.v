(** C73: images; C74: code *)
From Coq Require Import List Bool Arith NArith ZArith QArith Lia.
From Verif.Base Require Import Str StrFacts Dict DictFacts Result PurePath PyText ListFacts.
From Verif.Model Require Import Attributes Formats Width Paths HtmlFmt Images.
From Verif.Spec Require Import Attributes Paths Formats Images.
From Verif.Spec Require Width.
From Verif.Proof Require Import Attributes Paths Formats.
From Verif.Props Require Import Attributes Paths Formats Width HtmlFmt.
Import ListNotations.
Open Scope nat_scope.

(** ** The files *)
Lemma first_found f ps s x r : find_files f s ps = x :: r -> first_file f ps s x.
Proof.
  intro H. pose proof (C40_files f s ps) as C. rewrite H in C. clear H. unfold first_file.
  remember (x :: r) as xs eqn:E. revert E. induction C as [|l ls y ys N F C IH|l ls e ys O C IH]; intro E; [discriminate E| |].
  - injection E as -> ->. exists nil, l, ls. split; [reflexivity|]. split; [exact N|]. split; [exact F | intros ? []].
  - destruct (IH E) as (a & m & b & S & N & F & A). exists (l :: a), m, b. split; [now rewrite S|]. split; [exact N|]. split; [exact F|].
    intros y [<-|I]; [|now apply A]. destruct O as [O|O]; [now left | right; now exists e].
Qed.
Lemma none_found f ps s : find_files f s ps = nil <-> no_file f ps s.
Proof.
  pose proof (C40_files f s ps) as C. unfold no_file. split.
  - intro H. rewrite H in C. remember nil as xs eqn:E. revert E. clear H. induction C as [|l ls y ys N F C IH|l ls e ys O C IH]; intro E.
    + intros y [].
    + discriminate E.
    + intros y [<-|I]; [destruct O as [O|O]; [now left | right; now exists e] | now apply IH].
  - intro H. induction C as [|l ls y ys N F C IH|l ls e ys O C IH]; [reflexivity| |].
    + exfalso. destruct (H l (or_introl eq_refl)) as [L|(e & L)]; [now apply N | rewrite L in F; discriminate F].
    + apply IH. intros y I. apply H. now right.
Qed.

Section C73.
Variables (paths : list xpath) (class_ext : option str) (to_float : str -> option num) (times100 : num -> num) (xml_char : char -> bool).
Notation add_file := (add_file paths class_ext).
Notation tex_fmt := (tex_fmt paths class_ext to_float times100).
Notation html_fmt := (html_fmt paths class_ext to_float times100 xml_char).
Notation renders := (renders paths class_ext to_float times100 xml_char).

Lemma known_html xh : known_target (strip_c 46%N (html_target xh)).
Proof. destruct xh; vm_compute; auto. Qed.
(** What a rendering asks for: the first file that is named in the content, or else the content itself, and the
    attributes for the target. *)
Theorem C73_parameters : forall w i t u i' b bs o,
  wf (i_attributes i) -> known_target u -> t = lit "." ++ u \/ t = u -> ~ In (lit "self") (map fst (i_attributes i)) ->
  (forall p v, known_target v -> In (for_target p v) (map fst (i_attributes i)) -> plain p) ->
  add_file w i t None None = (i', b :: bs, o) ->
  bs = nil /\ b_target b = t /\
  exists p ps, b_parameters b = p :: ps /\
    ((exists x, first_file (is_file w) paths (i_content i) x /\ p = PFile x /\ b_ext b = Some (path_suffix (full x))) \/
     (no_file (is_file w) paths (i_content i) /\ p = PText (i_content i) /\ b_ext b = class_ext)) /\
    (forall q, In q ps <-> exists k v, plain k /\ pick (i_attributes i) (Some u) k = Some v /\ q = attribute_of k v).
Proof.
  intros w i t u i' b bs o W K T S D H. unfold Images.add_file in H. destruct (lookup t (i_cache i)); [discriminate H|].
  cbn [or_own] in H. destruct (build_of paths class_ext w t (i_content i) (i_attributes i)) as [b0|e] eqn:B; [|discriminate H].
  assert (E : b0 = b /\ bs = nil) by (destruct (emit w b0); split; congruence). destruct E as [-> ->]. split; [reflexivity|].
  unfold build_of in B.
  assert (Et : filter_attrs (i_attributes i) None (Some t) false true = filter_attrs (i_attributes i) None (Some u) false true).
  { unfold filter_attrs. replace (norm_target (Some t)) with (norm_target (Some u)); [reflexivity|].
    destruct T as [E|E]; rewrite E; [|reflexivity]. destruct K as [K|[K|[K|K]]]; rewrite K; reflexivity. }
  rewrite Et in B. destruct (C02_filter_all (i_attributes i) u false W K S D) as (r & F & Wr & P & _). rewrite F in B. cbn [bind] in B.
  assert (Q : forall q, In q (map PAttr (totuple r)) <-> exists k v, plain k /\ pick (i_attributes i) (Some u) k = Some v /\ q = attribute_of k v).
  { intro q. unfold totuple. rewrite map_map, in_map_iff. split.
    - intros ((k & v) & <- & I). apply (In_lookup k v r Wr) in I. apply P in I as [Pk Pv]. exists k, v. split; [exact Pk|]. split; [exact Pv|].
      unfold attribute_of. cbn [fst snd]. now destruct v.
    - intros (k & v & Pk & Pv & ->). exists (k, v). split; [unfold attribute_of; cbn [fst snd]; now destruct v|]. apply lookup_In, P. now split. }
  unfold content_as_filepath in B. destruct (find_files (is_file w) (i_content i) paths) as [|x xs] eqn:Ff; injection B as <-; cbn [b_target b_parameters b_ext].
  - split; [reflexivity|]. exists (PText (i_content i)), (map PAttr (totuple r)). split; [reflexivity|]. split; [|exact Q].
    right. split; [now apply none_found | auto].
  - split; [reflexivity|]. exists (PFile x), (map PAttr (totuple r)). split; [reflexivity|]. split; [|exact Q].
    left. exists x. split; [now apply first_found in Ff | auto].
Qed.

(** *** Once for each target *)
Lemma add_file_cached w i t x : lookup t (i_cache i) = Some x -> add_file w i t None None = (i, nil, Ok x).
Proof. intro L. unfold Images.add_file. now rewrite L. Qed.
Lemma add_file_keeps w i t i' bs o : add_file w i t None None = (i', bs, o) ->
  i_content i' = i_content i /\ i_attributes i' = i_attributes i /\
  (forall u x, lookup u (i_cache i) = Some x -> lookup u (i_cache i') = Some x) /\
  (forall x, o = Ok x -> lookup t (i_cache i') = Some x) /\ length bs <= 1.
Proof.
  unfold Images.add_file. destruct (lookup t (i_cache i)) as [y|] eqn:L.
  { intro E. injection E as <- <- <-. repeat (split; [reflexivity|]). split; [auto|]. split; [intros x E; injection E as <-; exact L|]. cbn; lia. }
  cbn [or_own]. destruct (build_of _ _ _ _ _ _) as [b|e].
  2:{ intro E. injection E as <- <- <-. repeat (split; [reflexivity|]). split; [auto|]. split; [discriminate|]. cbn; lia. }
  destruct (emit w b) as [x|e]; intro E; injection E as <- <- <-; cbn [i_content i_attributes i_cache]; repeat (split; [reflexivity|]).
  - split; [|split; [|cbn; lia]].
    + intros u y H. rewrite lookup_set. destruct (eqb_spec u t) as [->|]; [rewrite L in H; discriminate H | exact H].
    + intros y E. injection E as <-. apply lookup_set_eq.
  - split; [auto|]. split; [discriminate|]. cbn; lia.
Qed.
Definition finish (w : world) (k : kind) (a : attrs) (x : xpath) : result rendering :=
  match k with
  | AsTex => do s <- (do d <- copy a ; do d <- tex_percentwidth to_float times100 d (Some (lit ".tex")) false ; do c <- tex_argument x ;
                      tex_cmd tex_cmd_arguments tex_cmd_optionals (lit "includegraphics") d (Some c) None) ; Ok (Tex s)
  | AsHtml xh => do n <- (do d <- copy a ; do d <- xhtml_percentwidth to_float times100 d (Some (html_target xh)) ;
                          element xml_char (lit "img") (set (lit "src") (VStr (url w x (html_target xh))) d) [NText nil]) ; Ok (Html n)
  end.
Lemma render_eq i w k : render paths class_ext to_float times100 xml_char i (w, k) =
  let '(i', bs, o) := add_file w i (kind_target k) None None in (i', bs, do x <- o ; finish w k (i_attributes i) x).
Proof.
  destruct k as [|xh]; cbn [render fst snd kind_target]; unfold Images.tex_fmt, Images.html_fmt; [destruct (add_file w i (lit ".tex") None None) as [[i' bs] o]|destruct (add_file w i (html_target xh) None None) as [[i' bs] o]];
    destruct o as [x|e]; reflexivity.
Qed.
Lemma renders_cons i w k l : renders i ((w, k) :: l) =
  let '(i', bs, o) := render paths class_ext to_float times100 xml_char i (w, k) in
  let '(i'', os) := renders i' l in (i'', (bs, o) :: os).
Proof. reflexivity. Qed.
Lemma renders_cached l : forall i i' os j w k x, renders i l = (i', os) -> nth_error l j = Some (w, k) ->
  lookup (kind_target k) (i_cache i) = Some x -> nth_error os j = Some (nil, finish w k (i_attributes i) x).
Proof.
  induction l as [|[w0 k0] l IH]; intros i i' os j w k x R N L; [now destruct j|].
  rewrite renders_cons, render_eq in R. destruct j as [|j].
  - injection N as -> ->. rewrite (add_file_cached w i _ x L) in R. destruct (renders i l) as [i'' os']. injection R as _ <-. reflexivity.
  - cbn [nth_error] in N. destruct (add_file w0 i (kind_target k0) None None) as [[i1 bs] o] eqn:A.
    destruct (add_file_keeps _ _ _ _ _ _ A) as (_ & Ha & K & _). destruct (renders i1 l) as [i'' os'] eqn:R'. injection R as _ <-. cbn [nth_error].
    rewrite <- Ha. eapply IH; [exact R' | exact N | now apply K].
Qed.
Lemma renders_found l : forall i i' os j w k bs r, renders i l = (i', os) -> nth_error l j = Some (w, k) -> nth_error os j = Some (bs, Ok r) ->
  exists x, finish w k (i_attributes i) x = Ok r /\
    forall m w' k', j < m -> nth_error l m = Some (w', k') -> kind_target k' = kind_target k -> nth_error os m = Some (nil, finish w' k' (i_attributes i) x).
Proof.
  induction l as [|[w0 k0] l IH]; intros i i' os j w k bs r R N O; [now destruct j|].
  rewrite renders_cons, render_eq in R. destruct (add_file w0 i (kind_target k0) None None) as [[i1 bs1] o] eqn:A.
  destruct (add_file_keeps _ _ _ _ _ _ A) as (_ & Ha & K & F & _). destruct (renders i1 l) as [i'' os'] eqn:R'. injection R as _ <-.
  destruct j as [|j].
  - injection N as -> ->. injection O as <- O. destruct o as [x|e]; [|discriminate O]. exists x. split; [exact O|].
    intros [|m] w' k' L N E; [lia|]. cbn [nth_error] in N |- *. rewrite <- Ha. eapply renders_cached; [exact R' | exact N|]. rewrite E. now apply F.
  - cbn [nth_error] in N, O. destruct (IH _ _ _ _ _ _ _ _ R' N O) as (x & Fx & M). rewrite Ha in *. exists x. split; [exact Fx|].
    intros [|m] w' k' L N' E; [lia|]. cbn [nth_error] in N' |- *. apply M; [lia | exact N' | exact E].
Qed.
(** When an image was rendered for a target, further renderings for it ask for nothing, whatever happened to the files:
    they use the same file, so the text in tex is the same, and in html if the address is the same. *)
Theorem C73_once : forall i l i' os j m w w' k bs r,
  renders i l = (i', os) -> j < m -> nth_error l j = Some (w, k) -> nth_error l m = Some (w', k) ->
  nth_error os j = Some (bs, Ok r) ->
  exists o, nth_error os m = Some (nil, o) /\ (k = AsTex \/ (forall x t, url w x t = url w' x t) -> o = Ok r).
Proof.
  intros i l i' os j m w w' k bs r R L Nj Nm O. destruct (renders_found l _ _ _ _ _ _ _ _ R Nj O) as (x & F & M).
  exists (finish w' k (i_attributes i) x). split; [now apply M|]. intro H. rewrite <- F. destruct k as [|xh]; [reflexivity|].
  destruct H as [H|H]; [discriminate H|]. cbn [finish]. now rewrite H.
Qed.
(** A rendering asks for at most one build, and renderings for other targets have no influence on what is asked. *)
Theorem C73_one : forall i l i' os j bs o, renders i l = (i', os) -> nth_error os j = Some (bs, o) -> length bs <= 1.
Proof.
  intros i l. revert i. induction l as [|[w0 k0] l IH]; intros i i' os j bs o R O.
  - injection R as _ <-. now destruct j.
  - rewrite renders_cons, render_eq in R. destruct (add_file w0 i (kind_target k0) None None) as [[i1 bs1] o1] eqn:A.
    destruct (renders i1 l) as [i'' os'] eqn:R'. injection R as _ <-. destruct j as [|j]; cbn [nth_error] in O.
    + injection O as <- _. exact (proj2 (proj2 (proj2 (proj2 (add_file_keeps _ _ _ _ _ _ A))))).
    + eapply IH; eauto.
Qed.

(** *** In tex *)
Lemma ascii_iff s : ascii s = true <-> Forall (fun c => (c < 128)%N) s.
Proof. unfold ascii. rewrite forallb_forall, Forall_forall. split; intros H c I; specialize (H c I); now apply N.ltb_lt. Qed.
Lemma removelast_last {A} (l : list A) d : l <> nil -> removelast l ++ [last l d] = l.
Proof. intro N. symmetry. now apply app_removelast_last. Qed.
Lemma join_snoc sep (l : list str) x y : join sep (l ++ [x ++ y]) = join sep (l ++ [x]) ++ y.
Proof.
  induction l as [|z l IH]; [reflexivity|]. cbn [app]. rewrite !join_cons by (destruct l; discriminate).
  rewrite IH. now rewrite !app_assoc.
Qed.
Lemma with_suffix_str p b : with_suffix p nil = Ok b -> path_str b ++ path_suffix p = path_str p /\ extension (path_suffix p).
Proof.
  unfold with_suffix. cbn [mem eqb orb negb andb]. intro H.
  assert (B : b = mkpath (absolute p) (removelast (parts p) ++ [path_stem p ++ nil]) /\ parts p <> nil).
  { destruct (parts p) as [|y l]; [discriminate H|]. split; [|discriminate].
    apply (f_equal (fun o => match o with Ok q => q | Raise _ => b end)) in H. symmetry. exact H. }
  destruct B as [-> P]. clear H. split.
  - assert (R : parts p = removelast (parts p) ++ [path_stem p ++ path_suffix p]).
    { unfold path_stem, path_suffix. rewrite split_name_app. unfold path_name. symmetry. now apply removelast_last. }
    assert (J : join (lit "/") (parts p) = join (lit "/") (removelast (parts p) ++ [path_stem p]) ++ path_suffix p) by (rewrite R at 1; apply join_snoc).
    unfold path_str. cbn [absolute parts]. rewrite app_nil_r. rewrite J. clear J R.
    destruct (absolute p); [now rewrite app_assoc|]. destruct (removelast (parts p) ++ [path_stem p]) eqn:E; [destruct (removelast (parts p)); discriminate E|].
    now destruct (parts p).
  - unfold extension, path_suffix. destruct (split_name_cases (path_name p)) as [E|[(x & E & _ & D) _]]; [now left | right; now exists x].
Qed.
Lemma tex_argument_names x c : tex_argument x = Ok c -> names_file c (path_str (full x)).
Proof.
  unfold tex_argument. destruct (with_suffix (full x) nil) as [b|] eqn:W; [|discriminate]. cbn [bind].
  destruct (with_suffix_str _ _ W) as [E _]. intro H. rewrite <- E in *. destruct (ascii (path_str b ++ path_suffix (full x))) eqn:A.
  - injection H as <-. apply names_ascii. now apply ascii_iff.
  - assert (D : tex_cmd tex_cmd_arguments tex_cmd_optionals (lit "detokenize") nil (Some (path_str b)) None = Ok (lit "\detokenize" ++ lit "{" ++ path_str b ++ lit "}")) by reflexivity.
    rewrite D in H. cbn [bind] in H.
    apply (f_equal (fun o => match o with Ok y => y | Raise _ => c end)) in H. rewrite <- H.
    replace (lit "{" ++ (lit "\detokenize" ++ lit "{" ++ path_str b ++ lit "}") ++ lit "}" ++ path_suffix (full x))
      with (lit "{\detokenize{" ++ path_str b ++ lit "}}" ++ path_suffix (full x)) by (rewrite <- !app_assoc; reflexivity).
    apply names_other. rewrite <- ascii_iff. congruence.
Qed.
Lemma in_expected d t ks k v : In (k, v) (expected d t ks) <-> In k ks /\ pick d t k = Some v.
Proof.
  unfold expected. rewrite in_flat_map. split.
  - intros (y & I & H). destruct (pick d t y) eqn:P; [|destruct H]. destruct H as [H|[]]. injection H as <- <-. now split.
  - intros [I P]. exists k. split; [exact I|]. rewrite P. now left.
Qed.
Lemma expected_nodup d t ks : NoDup ks -> NoDup (map fst (expected d t ks)).
Proof.
  induction 1 as [|k ks N D IH]; [constructor|]. unfold expected. cbn [flat_map]. destruct (pick d t k); [|exact IH].
  cbn [app map fst]. constructor; [|exact IH]. intro I. apply in_map_iff in I as ((k' & v) & E & I). cbn in E. subst k'.
  apply N. exact (proj1 (proj1 (in_expected d t ks k v) I)).
Qed.
Lemma in_order d ks k : In k (default_order d ks) <-> In k ks.
Proof.
  unfold default_order. rewrite in_app_iff, !filter_In, negb_true_iff, !mem_In. split.
  - intros [[_ H]|[H _]]; exact H.
  - intro H. destruct (mem k (map fst d)) eqn:E; [left; split; [now apply mem_In | exact H] | right; auto].
Qed.
Lemma order_nodup d ks : wf d -> NoDup ks -> NoDup (default_order d ks).
Proof.
  intros W N. unfold default_order. apply NoDup_app_iff. split; [now apply NoDup_filter|]. split; [now apply NoDup_filter|].
  intros x X Y. apply filter_In in X as [X _]. apply filter_In in Y as [_ Y]. apply negb_true_iff, mem_not_In in Y. contradiction.
Qed.
Lemma tex_width_cases a d : tex_percentwidth to_float times100 a (Some (lit ".tex")) false = Ok d ->
  (pick a (Some (lit "tex")) (lit "width") = None /\ d = a) \/
  (pick a (Some (lit "tex")) (lit "width") <> None /\ exists v, d = set (lit "width") v a).
Proof.
  intro T. unfold tex_percentwidth in T. rewrite find_item_key in T. rewrite find_key_pick.
  change (norm_target (Some (lit ".tex"))) with (Some (lit "tex")) in T.
  destruct (find_key a (Some (lit "tex")) (lit "width")) as [[k v]|].
  - right. split; [discriminate|]. destruct (value_percentage _ _ _); [|discriminate T]. cbn [bind] in T. injection T as <-. eauto.
  - left. split; [reflexivity|]. congruence.
Qed.
(** The text in tex has the command with the path of the file and the options width and height. *)
Theorem C73_tex : forall w i i' bs t, let a := i_attributes i in let tex := Some (lit "tex") in
  wf a -> tex_fmt w i None None = (i', bs, Ok t) ->
  exists x c os, add_file w i (lit ".tex") None None = (i', bs, Ok x) /\ names_file c (path_str (full x)) /\
    t = lit "\includegraphics" ++ in_brackets os ++ lit "{" ++ c ++ lit "}" /\ NoDup (map fst os) /\
    (forall k v, In (k, v) os -> k = lit "width" \/ k = lit "height") /\
    (forall v, In (lit "height", v) os <-> pick a tex (lit "height") = Some v) /\
    ((exists v, In (lit "width", v) os) <-> pick a tex (lit "width") <> None) /\
    (forall y q n c t, lookup (lit "width.tex") a = None -> has_percent to_float a (Some (lit ".tex")) y q -> Spec.Width.class_of q n c t ->
       In (lit "width", VStr t) os).
Proof.
  intros w i i' bs t a tex W H. unfold Images.tex_fmt in H. destruct (add_file w i (lit ".tex") None None) as [[i1 bs1] o] eqn:A.
  assert (E : i1 = i' /\ bs1 = bs) by (split; congruence). destruct E as [-> ->].
  apply (f_equal snd) in H. cbn [snd] in H. destruct o as [x|]; [|discriminate H]. cbn [bind own_or_copy] in H.
  destruct (copy (i_attributes i)) as [a'|] eqn:C; [|discriminate H]. assert (a' = a) by (unfold copy in C; destruct (has _ _); [discriminate C | now injection C as <-]).
  subst a'. clear C. cbn [bind] in H. destruct (tex_percentwidth _ _ a _ _) as [d|] eqn:T; [|discriminate H]. cbn [bind] in H.
  destruct (tex_argument x) as [c|] eqn:X; [|discriminate H]. cbn [bind] in H.
  assert (Wd : wf d) by (destruct (tex_width_cases _ _ T) as [[_ ->]|(_ & v & ->)]; [exact W | now apply wf_set]).
  assert (Nk : NoDup [lit "width"; lit "height"]) by (constructor; [intros [K|[]]; discriminate K | constructor; [intros []|constructor]]).
  rewrite (C47_cmd_options tex_cmd_arguments tex_cmd_optionals (lit "includegraphics") d (Some c) [lit "width"; lit "height"] Wd eq_refl eq_refl) in H;
    [|repeat constructor; apply its_plain; reflexivity | apply mem_not_In; reflexivity | exact Nk].
  exists x, c, (expected d tex (default_order d [lit "width"; lit "height"])). split; [reflexivity|]. split; [now apply tex_argument_names|].
  split; [apply (f_equal (fun o => match o with Ok y => y | Raise _ => nil end)) in H; rewrite <- H; rewrite !app_assoc; reflexivity|].
  split; [apply expected_nodup; now apply order_nodup|].
  assert (In1 : forall k v, In (k, v) (expected d tex (default_order d [lit "width"; lit "height"])) <-> (k = lit "width" \/ k = lit "height") /\ pick d tex k = Some v).
  { intros k v. rewrite in_expected, in_order. cbn [In]. intuition congruence. }
  assert (Ph : pick d tex (lit "height") = pick a tex (lit "height")).
  { destruct (tex_width_cases _ _ T) as [[_ ->]|(_ & v & ->)]; [reflexivity|]. unfold pick, tex. rewrite !lookup_set_neq by discriminate. reflexivity. }
  split; [intros k v K; now apply In1 in K|]. split; [|split].
  - intro v. rewrite In1, Ph. intuition auto.
  - split.
    + intros (v & K). apply In1 in K as [_ K]. destruct (tex_width_cases _ _ T) as [[P ->]|(P & _)]; [unfold tex in K; rewrite K in P; discriminate P | exact P].
    + intro P. destruct (tex_width_cases _ _ T) as [[P' _]|(_ & v & ->)]; [contradiction|].
      destruct (pick (set (lit "width") v a) tex (lit "width")) as [u|] eqn:Q; [exists u; apply In1; auto|].
      exfalso. unfold pick, tex in Q. rewrite lookup_set_eq in Q. destruct (lookup (for_target _ _) _); discriminate Q.
  - intros y q n c' t' L P K. destruct (C24_tex_width to_float times100 a _ y q n c' t' P K) as (d' & T' & Lw & Lo).
    rewrite T in T'. injection T' as <-. apply In1. split; [now left|]. unfold pick, tex. rewrite Lo by discriminate.
    change (for_target (lit "width") (lit "tex")) with (lit "width.tex"). now rewrite L.
Qed.

(** *** In html *)
(** The element in html has the address of the file, and of the attributes alt, class and style, with a class for the width;
    the attributes width and id are not written. *)
Theorem C73_html : forall w xh i i' bs n, let a := i_attributes i in
  wf a -> html_fmt w xh i None None = (i', bs, Ok n) ->
  exists x e, add_file w i (html_target xh) None None = (i', bs, Ok x) /\ n = NElem (lit "img") e nil /\
    lookup (lit "src") e = Some (VStr (url w x (html_target xh))) /\
    (forall k v, lookup k e = Some v -> In k [lit "src"; lit "alt"; lit "class"; lit "style"]) /\
    lookup (lit "alt") e = lookup (lit "alt") a /\ lookup (lit "style") e = lookup (lit "style") a /\
    (find_item a (RKey (lit "width")) (Some (html_target xh)) = None -> lookup (lit "class") e = lookup (lit "class") a) /\
    (forall y q m c t, has_percent to_float a (Some (html_target xh)) y q -> Spec.Width.class_of q m c t ->
       lookup (lit "class") e = Some (VStr (match lookup (lit "class") a with Some (VStr z) => z ++ lit " " ++ c | _ => c end))).
Proof.
  intros w xh i i' bs n a W H. unfold Images.html_fmt in H. destruct (add_file w i (html_target xh) None None) as [[i1 bs1] o] eqn:A.
  assert (E : i1 = i' /\ bs1 = bs) by (split; congruence). destruct E as [-> ->].
  apply (f_equal snd) in H. cbn [snd] in H. destruct o as [x|]; [|discriminate H]. cbn [bind own_or_copy] in H.
  destruct (copy (i_attributes i)) as [a'|] eqn:C; [|discriminate H]. assert (a' = a) by (unfold copy in C; destruct (has _ _); [discriminate C | now injection C as <-]).
  subst a'. clear C. cbn [bind] in H. destruct (xhtml_percentwidth _ _ a _) as [d|] eqn:T; [|discriminate H]. cbn [bind] in H.
  assert (Od : (d = a \/ exists v, d = set (lit "class") v a) /\ (find_item a (RKey (lit "width")) (Some (html_target xh)) = None -> d = a) ).
  { unfold xhtml_percentwidth in T. destruct (find_item _ _ _); [|injection T as <-; repeat split; auto].
    destruct (value_percentage _ _ _) as [[pc|]|]; cbn [bind] in T; [| injection T as <-; repeat split; auto | discriminate T].
    destruct (find_window _ _); [|injection T as <-; repeat split; auto].
    destruct (lookup (lit "class") a) as [[z|?|?]|] eqn:L; try discriminate T; injection T as <-; split; eauto; discriminate. }
  destruct Od as (Od & On).
  assert (Wd : wf (set (lit "src") (VStr (url w x (html_target xh))) d)) by (apply wf_set; destruct Od as [->|(v & ->)]; [exact W | now apply wf_set]).
  assert (Lo : forall k, k <> lit "class" -> lookup k d = lookup k a) by (intros k K; destruct Od as [->|(v & ->)]; [reflexivity | now apply lookup_set_neq]).
  apply element_inv in H as (m & e & H & ->). destruct (tag_spec _ _ _ _ Wd H) as (Hm & _ & S).
  assert (m = lit "img") by (rewrite Hm; reflexivity). subst m.
  assert (Le : forall k, In k [lit "src"; lit "alt"; lit "class"; lit "style"] -> lookup k e = lookup k (set (lit "src") (VStr (url w x (html_target xh))) d)).
  { intros k K. destruct (lookup k (set _ _ d)) as [v|] eqn:L.
    - apply S. left. split; [exact K | exact L].
    - destruct (lookup k e) as [v|] eqn:L'; [|reflexivity]. apply S in L' as [[_ L']|(P & _)]; [congruence|]. exfalso. apply P. apply has_permitted. reflexivity. }
  exists x, e. split; [reflexivity|]. split; [reflexivity|].
  split; [rewrite Le by (cbn; auto); apply lookup_set_eq|].
  split. { intros k v L. apply S in L as [[L _]|(P & _)]; [exact L|]. exfalso. apply P. apply has_permitted. reflexivity. }
  split; [rewrite Le by (cbn; auto); rewrite lookup_set_neq by discriminate; apply Lo; discriminate|].
  split; [rewrite Le by (cbn; auto); rewrite lookup_set_neq by discriminate; apply Lo; discriminate|].
  split; [intro F; rewrite Le by (cbn; auto); rewrite lookup_set_neq by discriminate; now rewrite (On F)|].
  intros y q m c t P K. rewrite Le by (cbn; auto). rewrite lookup_set_neq by discriminate.
  assert (Hc : forall v, lookup (lit "class") a = Some v -> exists z, v = VStr z).
  { intros v Lv. destruct v as [z|z|z]; [eauto| |]; exfalso; destruct P as ((kv & Hf) & Hg & Hp & Hq); unfold xhtml_percentwidth in T;
      rewrite Hf, Hg in T; cbn [value_percentage] in T; rewrite (percentage_q to_float times100 y q Hp Hq) in T; cbn [bind] in T;
      destruct (class_cases q m c t K) as (Hpos & Hw & _); rewrite Z.abs_eq in T by lia; rewrite Hw, Lv in T; discriminate T. }
  destruct (C24_html_class to_float times100 a _ y q m c t P K Hc) as (d' & T' & Lc & _). rewrite T in T'. injection T' as <-. exact Lc.
Qed.

(** *** Given arguments *)
(** When a content or attributes are given, as for equations, each rendering asks for a build again and the image does not
    change. *)
Theorem C73_given : forall w i t c a i' bs o, c <> None \/ a <> None -> add_file w i t c a = (i', bs, o) ->
  i' = i /\ (forall x, o = Ok x -> length bs = 1).
Proof.
  intros w i t c a i' bs o G H. unfold Images.add_file in H.
  replace (match c, a with None, None => true | _, _ => false end) with false in H by (destruct c, a, G; congruence).
  destruct (build_of _ _ _ _ _ _) as [b|]; [|injection H as <- <- <-; split; [reflexivity | discriminate]].
  destruct (emit w b); injection H as <- <- <-; split; reflexivity || discriminate || auto.
Qed.
End C73.

(** Finding: a width in percent that is given for tex alone is written in percent, which tex reads as a comment. *)
Theorem C73_tex_width_refuted :
  ~ (forall to_float times100 w i i' bs t y q n c v, let a := i_attributes i in
       tex_fmt nil None to_float times100 w i None None = (i', bs, Ok t) ->
       has_percent to_float a (Some (lit ".tex")) y q -> Spec.Width.class_of q n c v ->
       exists pre post, t = pre ++ lit "width=" ++ v ++ post).
Proof.
  intro H. set (fl := fun x : str => if eqb x (lit "50") then Some (Fin 50) else None).
  set (x := Target (of_str (lit "/p")) (lit "tex") (of_str (lit "a.png"))).
  set (w := mkworld (fun _ => false) (fun _ => Ok x) (fun _ _ => nil)).
  set (i := mkimg (lit "a.png") [(lit "width.tex", VStr (lit "50%"))] nil).
  destruct (H fl (fun v => v) w i _ _ _ (lit "50%") 50%Q 50 (lit "w50") (lit "0.49\textwidth") eq_refl) as (pre & post & E).
  - split; [eexists; reflexivity|]. split; [reflexivity|]. split; [vm_compute; tauto | reflexivity].
  - apply Spec.Width.w50. split; reflexivity || discriminate.
  - assert (C : contains (pre ++ lit "width=" ++ lit "0.49\textwidth" ++ post) (lit "0.49\textwidth") = true).
    { apply contains_iff. exists (pre ++ lit "width="), post. now rewrite <- app_assoc. }
    rewrite <- E in C. vm_compute in C. discriminate C.
Qed.

(** The hypotheses are met: an image with a file, a width, an alternative text and a path that is not in ascii is rendered
    in tex, html and tex again; the second time nothing is asked. *)
Definition ex_path := Target (of_str (lit "/p")) (lit "media") (mkpath false [lit "figs"; [233; 46; 112; 110; 103]%N]).
Definition ex_world := mkworld (fun p => eqb (path_str p) (lit "/p/src/a.png")) (fun _ => Ok ex_path) (fun _ _ => lit "/media/a.png").
Definition ex_img := mkimg (lit "a.png") [(lit "width", VStr (lit "50%")); (lit "alt", VStr (lit "A")); (lit "height.tex", VStr (lit "3cm"))] nil.
Definition ex_width (x : str) : option num := if eqb x (lit "50") then Some (Fin 50) else None.
Example C73_ex :
  let r := snd (renders [Source (of_str (lit "/p/src")) (of_str (lit ""))] None ex_width (fun v => v) (fun _ => true) ex_img [(ex_world, AsTex); (ex_world, AsHtml false); (ex_world, AsTex)]) in
  let t := Tex (lit "\includegraphics[width=0.49\textwidth, height=3cm]{{\detokenize{/p/media/figs/" ++ [233]%N ++ lit "}}.png}") in
  map snd r = [Ok t; Ok (Html (NElem (lit "img") [(lit "src", VStr (lit "/media/a.png")); (lit "alt", VStr (lit "A")); (lit "class", VStr (lit "w50"))] nil)); Ok t] /\
  map (fun e => length (fst e)) r = [1; 1; 0] /\
  map (fun e => map b_ext (fst e)) r = [[Some (lit ".png")]; [Some (lit ".png")]; []] /\
  wf (i_attributes ex_img) /\ has_percent ex_width (i_attributes ex_img) (Some (lit ".tex")) (lit "50%") 50%Q.
Proof.
  split; [vm_compute; reflexivity|]. split; [vm_compute; reflexivity|]. split; [vm_compute; reflexivity|].
  split; [repeat constructor; cbn; intuition discriminate|].
  split; [eexists; reflexivity|]. split; [reflexivity|]. split; [vm_compute; tauto | reflexivity].
Qed.

(** ** Code *)
Section C74.
Variables (title : str -> str) (lexers : str -> bool) (by_name : str -> option str) (guess : str -> str).
Variables (w : world) (paths : list xpath) (read : path -> str).
(** The code is the content as it was written if none of its lines names a file. *)
Theorem C74_literal_partial : forall s, no_file (is_file w) paths s -> code_content w paths read s = s.
Proof. intros s H. unfold code_content. now rewrite (proj2 (none_found _ _ _) H). Qed.
(** Otherwise it is the content of the files that are named, in the order of the lines; the other lines are lost. *)
Theorem C74_files : forall s, ~ no_file (is_file w) paths s ->
  exists xs, found_lines (fun l => find_text (is_file w) l paths) (splitlines (strip s)) xs /\ xs <> nil /\
    code_content w paths read s = join [10%N] (map (fun x => read (full x)) xs).
Proof.
  intros s H. exists (find_files (is_file w) s paths). split; [apply C40_files|].
  assert (N : find_files (is_file w) s paths <> nil) by (intro E; now apply none_found in E).
  split; [exact N|]. unfold code_content. now destruct (find_files (is_file w) s paths).
Qed.

(** The lexer is that of the first positional attribute for which there is one; if there is none, it is guessed. *)
Definition known (d : attrs) (k : str) : Prop := In (k, VPos PStr) d /\ lexers (title k ++ lit "Lexer") = true.
Lemma first_lexer_spec s l :
  (exists a k b, l = a ++ k :: b /\ lexers (title k ++ lit "Lexer") = true /\ Forall (fun x => lexers (title x ++ lit "Lexer") = false) a /\
     first_lexer title lexers by_name guess l s = match by_name k with Some y => Ok y | None => Raise OtherError end) \/
  (Forall (fun x => lexers (title x ++ lit "Lexer") = false) l /\ first_lexer title lexers by_name guess l s = Ok (guess s)).
Proof.
  induction l as [|x l IH]; [right; split; [constructor | reflexivity]|]. cbn [first_lexer]. destruct (lexers (title x ++ lit "Lexer")) eqn:E.
  - left. exists nil, x, l. repeat split; auto.
  - destruct IH as [(a & k & b & -> & L & F & R)|(F & R)].
    + left. exists (x :: a), k, b. repeat split; auto.
    + right. split; [now constructor | exact R].
Qed.
Theorem C74_lexer : forall d s,
  (forall a k b, d = a ++ (k, VPos PStr) :: b -> lexers (title k ++ lit "Lexer") = true -> (forall x, ~ known a x) ->
     lexer title lexers by_name guess d s = match by_name k with Some y => Ok y | None => Raise OtherError end) /\
  ((forall k, ~ known d k) -> lexer title lexers by_name guess d s = Ok (guess s)).
Proof.
  intros d s. unfold lexer.
  assert (P : forall e : attrs, (forall k, In (k, VPos PStr) e -> lexers (title k ++ lit "Lexer") = false) ->
    Forall (fun x => lexers (title x ++ lit "Lexer") = false) (map fst (filter is_positional e))).
  { intros e K. apply Forall_forall. intros x X. apply in_map_iff in X as ((k & v) & <- & X). apply filter_In in X as [X Y]. cbn [fst].
    apply K. destruct v as [| [] |]; try discriminate Y. exact X. }
  assert (Fl : forall a r t, Forall (fun x => lexers (title x ++ lit "Lexer") = false) a ->
    first_lexer title lexers by_name guess (a ++ r) t = first_lexer title lexers by_name guess r t).
  { induction 1 as [|x a X _ IH]; [reflexivity|]. cbn [app first_lexer]. now rewrite X. }
  split.
  - intros a k b -> L N. rewrite filter_app, map_app. cbn [filter is_positional snd map fst]. rewrite Fl; [cbn [first_lexer]; now rewrite L|].
    apply P. intros x X. destruct (lexers (title x ++ lit "Lexer")) eqn:E; [|reflexivity]. exfalso.
    apply (N x). now split.
  - intro N. rewrite <- (app_nil_r (map fst _)). rewrite Fl; [reflexivity|]. apply P. intros k K.
    destruct (lexers (title k ++ lit "Lexer")) eqn:E; [|reflexivity]. exfalso. apply (N k). now split.
Qed.
(** The tag of a language has its lexer, unless the author gave the name of another one before. *)
Theorem C74_language : forall l d s, lexers (title l ++ lit "Lexer") = true -> lookup l d = None -> (forall k, ~ known d k) ->
  lexer title lexers by_name guess (code_attributes (Some l) d) s = match by_name l with Some y => Ok y | None => Raise OtherError end.
Proof.
  intros l d s L N K. cbn [code_attributes]. rewrite set_new by (unfold has; now rewrite N).
  apply (proj1 (C74_lexer (d ++ [(l, VPos PStr)]) s) d l nil); [reflexivity | exact L | exact K].
Qed.

(** Inline code is shown as it is: in html as the text of an element, in tex as a verbatim text if it has no newline and
    one of the delimiters is free. *)
Theorem C74_inline_html : forall xml_char d s r, wf d -> code_html title lexers by_name guess xml_char false d s = Ok r ->
  exists e, r = InlineHtml (NElem (lit "code") e (match s with nil => nil | _ => [NText s] end)).
Proof.
  intros xml_char d s r W H. unfold code_html in H. destruct (element xml_char (lit "code") d [NText s]) as [n|] eqn:E; [|discriminate H].
  injection H as <-. apply element_inv in E as (m & e & E & ->). exists e. f_equal.
  destruct (tag_spec _ _ _ _ W E) as (Hm & _). rewrite Hm. destruct s; reflexivity.
Qed.
Theorem C74_inline_tex_partial : forall d s, ~ In 10%N s -> (exists x, In x [124; 33; 94]%N /\ ~ In x s) ->
  exists t, code_tex title lexers by_name guess false d s = Ok (InlineTex t) /\ reads_verb t s.
Proof. intros d s N D. exists (tex_verb s). split; [reflexivity|]. now apply C46_verb_partial. Qed.
(** A block has the whole text. *)
Theorem C74_block : forall xml_char d s r, code_html title lexers by_name guess xml_char true d s = Ok r -> code_tex title lexers by_name guess true d s = Ok r /\ exists l, r = Block l s.
Proof.
  intros xml_char d s r H. unfold code_html, code_tex in *. split; [exact H|]. destruct (lexer _ _ _ _ d s) as [l|]; [|discriminate H].
  injection H as <-. eauto.
Qed.
End C74.
(** Finding: a line of code that is the name of a file replaces the whole code with the content of the file. *)
Theorem C74_literal_refuted : ~ (forall w paths read s, code_content w paths read s = s).
Proof.
  intro H. specialize (H (mkworld (fun p => eqb (path_str p) (lit "/p/make")) (fun _ => Raise OtherError) (fun _ _ => nil))
    [Source (of_str (lit "/p")) (of_str (lit ""))] (fun _ => lit "all:") (lit "cd src" ++ [10]%N ++ lit "make")).
  vm_compute in H. discriminate H.
Qed.
Example C74_ex :
  let w := mkworld (fun p => eqb (path_str p) (lit "/p/a.py") || eqb (path_str p) (lit "/p/b.py")) (fun _ => Raise OtherError) (fun _ _ => nil) in
  let ps := [Source (of_str (lit "/p")) (of_str (lit ""))] in
  code_content w ps path_str (lit "a.py" ++ [10]%N ++ lit "nothing" ++ [10]%N ++ lit "b.py") = lit "/p/a.py" ++ [10]%N ++ lit "/p/b.py" /\
  code_content w ps path_str (lit "print(1)") = lit "print(1)" /\
  lexer (fun x => x) (fun x => mem x [lit "pythonLexer"; lit "javaLexer"]) Some (fun _ => lit "guess")
    (code_attributes (Some (lit "java")) [(lit "note", VPos PStr); (lit "python", VPos PStr)]) nil = Ok (lit "python") /\
  code_tex (fun x => x) (fun _ => false) Some (fun s => s) false nil (lit "a|b") = Ok (InlineTex (lit "\verb!a|b!")).
Proof. vm_compute. repeat split; reflexivity. Qed.

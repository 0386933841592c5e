(** C75: headings and captions show their number and title. *)
From Coq Require Import List Bool Arith NArith Lia.
From Verif.Base Require Import Str StrFacts Dict DictFacts Result.
From Verif.Spec Require Import Macros.
From Verif.Model Require Import DictUtils Macros Labels Attributes Formats Typography TagParser Width TexFmt HtmlFmt TagTree AutoLabels LabelTags.
From Verif.Spec Require Import Labels Ref LabelTags TagParser.
From Verif.Proof Require Import Macros TagParser.
From Verif.Props Require Import Macros Labels Ref TagParser Typography.
From Verif.Spec Require Attributes.
From Verif.Spec Require Formats Typography AutoLabels.
From Verif.Props Require Attributes HtmlFmt AutoLabels.
Import ListNotations.

(** Digits *)
Lemma digits_range f : forall n acc, (forall c, In c acc -> (48 <= c <= 57)%N) -> forall c, In c (digits_aux f n acc) -> (48 <= c <= 57)%N.
Proof.
  induction f as [|f IH]; intros n acc H c Hc; cbn [digits_aux] in Hc; [now apply H|].
  assert (G : forall x, In x ((48 + n mod 10)%N :: acc) -> (48 <= x <= 57)%N).
  { intros x [<-|Hx]; [|now apply H]. pose proof (N.mod_lt n 10 ltac:(discriminate)) as L. revert L. generalize (n mod 10)%N. intros y L. lia. }
  destruct (N.ltb n 10); [now apply G | exact (IH _ _ G c Hc)].
Qed.
Lemma nat_digits n c : In c (str_of_nat n) -> (48 <= c <= 57)%N.
Proof. unfold str_of_nat, str_of_N. apply digits_range. intros ? []. Qed.
Lemma nat_no n c : (c < 48 \/ 57 < c)%N -> ~ In c (str_of_nat n).
Proof. intros H I. apply nat_digits in I. lia. Qed.

Lemma tree_chars ls l c : In c (tree_number ls l) -> (48 <= c <= 57)%N \/ c = 46%N.
Proof.
  unfold tree_number. set (L := flat_map _ _). assert (H : forall x, In x L -> forall d, In d x -> (48 <= d <= 57)%N).
  { intros x Hx d Hd. unfold L in Hx. apply in_flat_map in Hx as ([[|n]|] & _ & Hx); try destruct Hx as [<-|[]]; try destruct Hx.
    now apply nat_digits in Hd. }
  clearbody L. induction L as [|x L IH]; [intros []|]. destruct L as [|y L].
  - intros Hc. left. apply (H x); [now left|exact Hc].
  - rewrite join_cons by discriminate. intros Hc. apply in_app_iff in Hc as [Hc|[<-|Hc]]; [left; apply (H x); [now left|exact Hc]|now right|].
    apply IH; [intros z Hz; apply H; now right|exact Hc].
Qed.
Lemma tree_no_at ls l : ~ In 64%N (tree_number ls l).
Proof. intros I. apply tree_chars in I. lia. Qed.

Section Formats.
Variables (uw : char -> bool) (title : label -> str) (misc : lobj -> str -> option lobj) (repr : lobj -> str)
          (rounds : nat) (e : Labels.env) (m : manager).
(** Objects have no attribute with an empty name, and None none that starts with '@' *)
Hypothesis misc_empty : forall o, misc o nil = None.
Hypothesis misc_none : forall p, misc ONone (64%N :: p) = None.
Hypothesis Hr : 2 <= rounds.
Notation attr := (attr title misc e m).
Notation show := (show repr).
Notation replace := (replace uw title misc repr rounds e m).

Lemma value1 (l : label) (p : str) o : ~ In 46%N p -> attr (OLabel l) p = Some o -> is_none o = false ->
  has_value is_none attr show [[(lit "@label", OLabel l)]] (lit "label." ++ p) (show o).
Proof.
  intros Hp Ha Ho. exists (lit "label"), [p], (OLabel l), o, nil. split; [reflexivity|]. split.
  - constructor; [intros H; cbn in H; intuition discriminate|]. constructor; [exact Hp|constructor].
  - split; [constructor; reflexivity|]. split; [reflexivity|]. split.
    + eapply path_step; [exact Ha|exact Ho|constructor].
    + cbn [map concat]. now rewrite app_nil_r.
Qed.
Lemma value2 (l : label) (p : str) o : ~ In 46%N p -> attr (OLabel l) p = Some o -> is_none o = false -> attr o nil = None ->
  has_value is_none attr show [[(lit "@label", OLabel l)]] (lit "label." ++ p ++ lit ".") (show o ++ lit ".").
Proof.
  intros Hp Ha Ho He. exists (lit "label"), [p; nil], (OLabel l), o, [nil]. split; [reflexivity|]. split.
  - constructor; [intros H; cbn in H; intuition discriminate|]. constructor; [exact Hp|]. constructor; [intros []|constructor].
  - split; [constructor; reflexivity|]. split; [reflexivity|]. split.
    + eapply path_step; [exact Ha|exact Ho|]. apply path_stop. exact He.
    + reflexivity.
Qed.
Lemma wf_name n after : forallb (fun c => macro_char (fun _ => false) c) n = true -> n <> [] ->
  match after with c :: _ => (c < 128)%N /\ macro_char (fun _ => false) c = false /\ c <> 123%N | [] => True end ->
  n <> [] /\ Forall (name_char uw) n /\ ends_name uw after.
Proof.
  intros H N A. assert (W : forall c, (c < 128)%N -> macro_char uw c = macro_char (fun _ => false) c).
  { intros c L. unfold macro_char, is_word. apply N.ltb_lt in L. now rewrite L. }
  assert (NC : forall c, macro_char uw c = true -> name_char uw c).
  { intros c Hc. unfold macro_char in Hc. apply orb_true_iff in Hc as [Hc|Hc]; [now left|]. apply N.eqb_eq in Hc. now right. }
  split; [exact N|]. split.
  - rewrite Forall_forall. intros c Hc. apply NC. rewrite forallb_forall in H. specialize (H c Hc).
    destruct (N.ltb_spec c 128) as [L|L]; [now rewrite W|]. unfold macro_char, is_word in H.
    destruct (N.ltb_spec c 128); [lia|]. cbn in H. apply N.eqb_eq in H. unfold dot in H. lia.
  - destruct after as [|c r]; [exact I|]. destruct A as (A & B & C). split; [|exact C]. intros [Hw|Hd].
    + rewrite <- (W c A) in B. unfold macro_char in B. rewrite Hw in B. discriminate.
    + subst c. cbn in B. discriminate.
Qed.
(** a format of texts and references to a label *)
Lemma replace_known (l : label) (ts : list token) (value : str -> str) :
  wf_tokens uw ts ->
  (forall n, In n (names_of ts) -> has_value is_none attr show [[(lit "@label", OLabel l)]] n (value n) /\ ~ In 64%N (value n)) ->
  replace (text_of ts) [(lit "@label", OLabel l)] =
    Ok (concat (map (fun t => match t with Spec.Macros.Text x => x | Ref n _ => value n end) ts)).
Proof.
  intros W H. destruct (C11_all_known lobj uw is_none ONone attr show [[(lit "@label", OLabel l)]] value ts eq_refl W H rounds Hr) as (r & E & -> & _).
  unfold Model.LabelTags.replace. unfold dict in E |- *. now rewrite E.
Qed.

(** *** The formats of headings *)
(** a prefix, a number with a period and the title *)
Lemma replace_numbered l pre p o : l_content l = true -> ~ In 64%N (title l) -> ~ In 64%N pre ->
  forallb (fun c => macro_char (fun _ => false) c) p = true -> ~ In 46%N p ->
  lit "label." ++ p ++ lit "." <> lit "label.title" ->
  attr (OLabel l) p = Some o -> is_none o = false -> attr o nil = None -> ~ In 64%N (show o) ->
  replace (pre ++ lit "@label." ++ p ++ lit ". @label.title") [(lit "@label", OLabel l)] =
  Ok (pre ++ show o ++ lit ". " ++ title l).
Proof.
  intros Hc Ht Hp Hm Hd Hne Ha Ho He Hs.
  pose (ts := [Spec.Macros.Text pre; Ref (lit "label." ++ p ++ lit ".") None; Spec.Macros.Text (lit " "); Ref (lit "label.title") None]).
  pose (value := fun n => if eqb n (lit "label.title") then title l else show o ++ lit ".").
  assert (E1 : pre ++ lit "@label." ++ p ++ lit ". @label.title" = text_of ts).
  { unfold ts, text_of. cbn [map concat token_text ref_text app]. rewrite !app_nil_r.
    change (lit "label." ++ p ++ lit ".") with (lit "label." ++ (p ++ lit ".")). f_equal.
    change (lit "@label.") with (64%N :: lit "label."). cbn [app]. f_equal.
    rewrite <- !app_assoc. f_equal. }
  rewrite E1. rewrite (replace_known l ts value).
  - f_equal. unfold ts. cbn [map concat]. unfold value. rewrite eqb_refl.
    destruct (eqb_spec (lit "label." ++ p ++ lit ".") (lit "label.title")); [contradiction|]. rewrite app_nil_r, <- !app_assoc. reflexivity.
  - unfold ts. apply wf_text; [exact Hp|].
    destruct (wf_name (lit "label." ++ p ++ lit ".") (text_of [Spec.Macros.Text (lit " "); Ref (lit "label.title") None])) as (A & B & C).
    + rewrite !forallb_app, Hm. reflexivity.
    + discriminate.
    + cbn. split; [lia|]. split; [reflexivity|discriminate].
    + apply wf_ref; [exact A|exact B|discriminate|intros _; exact C|].
      apply wf_text; [intros [H|[]]; discriminate H|].
      destruct (wf_name (lit "label.title") nil) as (A' & B' & C'); [reflexivity|discriminate|exact I|].
      apply wf_ref; [exact A'|exact B'|discriminate|intros _; exact C'|constructor].
  - intros n Hn. unfold ts in Hn. cbn [names_of flat_map app] in Hn. unfold value. destruct Hn as [<-|[<-|[]]].
    + destruct (eqb_spec (lit "label." ++ p ++ lit ".") (lit "label.title")); [contradiction|]. split.
      * apply value2; assumption.
      * intros I. apply in_app_iff in I as [I|[I|[]]]; [now apply Hs|discriminate I].
    + rewrite eqb_refl. split; [|exact Ht]. apply (value1 l (lit "title") (OText (title l))); [intros H; cbn in H; intuition discriminate|reflexivity|reflexivity].
Qed.
Lemma replace_title l : ~ In 64%N (title l) -> replace (lit "@label.title") [(lit "@label", OLabel l)] = Ok (title l).
Proof.
  intros Ht. change (lit "@label.title") with (text_of [Ref (lit "label.title") None]).
  rewrite (replace_known l [Ref (lit "label.title") None] (fun _ => title l)).
  - cbn [map concat]. now rewrite app_nil_r.
  - destruct (wf_name (lit "label.title") nil) as (A' & B' & C'); [reflexivity|discriminate|exact I|].
    apply wf_ref; [exact A'|exact B'|discriminate|intros _; exact C'|constructor].
  - intros n [<-|[]]. split; [|exact Ht]. apply (value1 l (lit "title") (OText (title l))); [intros H; cbn in H; intuition discriminate|reflexivity|reflexivity].
Qed.

(** *** The formats of captions *)
Lemma pass_bold d name y : lookup (lit "@b") d = None -> ~ In 64%N y -> In name [lit "Fig. "; lit "Table "] ->
  pass uw is_none ONone attr show [d] (lit "@b{" ++ name ++ y) = (lit "@b{" ++ name ++ y, 1).
Proof.
  intros L Hy Hn.
  assert (M : match_macro uw (lit "@b{" ++ name ++ y) = Some (lit "@b", lit "@b", lit "{" ++ name ++ y)).
  { destruct Hn as [<-|[<-|[]]]; reflexivity. }
  rewrite (pass_match uw is_none ONone attr show [d] _ _ _ _ M).
  rewrite (pass_no_at uw is_none ONone attr show [d] (lit "{" ++ name ++ y)).
  - cbn [fst snd]. f_equal. unfold substitute. change (split_c dot (lit "@b")) with [lit "@b"]. cbn [resolve is_none find_dicts].
    rewrite L. change (attr ONone (lit "@b")) with (misc ONone (lit "@b")). change (lit "@b") with (64%N :: lit "b") at 1. rewrite misc_none. reflexivity.
  - intros I. apply in_app_iff in I as [[I|[]]|I]; [discriminate I|]. apply in_app_iff in I as [I|I]; [|now apply Hy].
    destruct Hn as [<-|[<-|[]]]; cbn in I; intuition discriminate.
Qed.
Lemma replace_bold d name y : lookup (lit "@b") d = None -> ~ In 64%N y -> In name [lit "Fig. "; lit "Table "] ->
  replace (lit "@b{" ++ name ++ y) d = Ok (lit "@b{" ++ name ++ y).
Proof.
  intros L Hy Hn. unfold LabelTags.replace, replace_macros. rewrite pass_bold by assumption.
  destruct rounds as [|r]; [lia|]. cbn [macro_loop Nat.ltb Nat.leb andb]. rewrite pass_bold by assumption.
  destruct r; reflexivity.
Qed.
Lemma replace_caption l name z n : In name [lit "Fig. "; lit "Table "] -> ~ In 64%N z -> label_number (Some l) = Some n ->
  (forall c r, z = c :: r -> (c < 128)%N /\ macro_char (fun _ => false) c = false /\ c <> 123%N) ->
  replace (lit "@b{" ++ name ++ lit "@label.number" ++ z) [(lit "@label", OLabel l)] = Ok (lit "@b{" ++ name ++ str_of_nat n ++ z).
Proof.
  intros Hn Hz El Hz1. set (d := [(lit "@label", OLabel l)]).
  assert (Hy : ~ In 64%N (str_of_nat n ++ z)) by (intros I; apply in_app_iff in I as [I|I]; [apply nat_no in I; [exact I|lia]|now apply Hz]).
  assert (P : pass uw is_none ONone attr show [d] (lit "@b{" ++ name ++ lit "@label.number" ++ z) = (lit "@b{" ++ name ++ str_of_nat n ++ z, 2)).
  { assert (M : match_macro uw (lit "@b{" ++ name ++ lit "@label.number" ++ z) = Some (lit "@b", lit "@b", lit "{" ++ name ++ lit "@label.number" ++ z)).
    { destruct Hn as [<-|[<-|[]]]; reflexivity. }
    rewrite (pass_match uw is_none ONone attr show [d] _ _ _ _ M).
    rewrite app_assoc. rewrite (pass_text uw is_none ONone attr show [d] (lit "{" ++ name)).
    2:{ destruct Hn as [<-|[<-|[]]]; cbn; intuition discriminate. }
    assert (M2 : match_macro uw (lit "@label.number" ++ z) = Some (64%N :: lit "label.number", ref_text (lit "label.number") None, z)).
    { destruct (wf_name (lit "label.number") z) as (A & B & C); [reflexivity|discriminate| |].
      - destruct z as [|c r]; [exact I|]. now apply (Hz1 c r).
      - exact (match_macro_ref uw (lit "label.number") None z A B ltac:(discriminate) (fun _ => C)). }
    rewrite (pass_match uw is_none ONone attr show [d] _ _ _ _ M2). rewrite (pass_no_at uw is_none ONone attr show [d] z Hz). cbn [fst snd].
    f_equal.
    assert (S1 : substitute is_none ONone attr show [d] (lit "@b") (lit "@b") = lit "@b").
    { unfold substitute. change (split_c dot (lit "@b")) with [lit "@b"]. cbn [resolve is_none find_dicts].
      change (lookup (lit "@b") d) with (@None lobj). cbn [find_dicts].
      change (attr ONone (lit "@b")) with (misc ONone (lit "@b")). change (lit "@b") with (64%N :: lit "b") at 1. rewrite misc_none. reflexivity. }
    rewrite S1.
    rewrite (substitute_has_value is_none ONone attr show [d] (lit "label.number") (str_of_nat n) _ eq_refl).
    - rewrite <- !app_assoc. reflexivity.
    - apply (value1 l (lit "number") (ONum n)); [intros H; cbn in H; intuition discriminate| |reflexivity].
      unfold LabelTags.attr. cbn [eqb]. rewrite El. reflexivity. }
  unfold Model.LabelTags.replace, replace_macros. unfold dict in P |- *. rewrite P.
  destruct rounds as [|r]; [lia|]. cbn [macro_loop Nat.ltb Nat.leb andb]. rewrite pass_bold; [|reflexivity|exact Hy|exact Hn].
  destruct r; reflexivity.
Qed.
End Formats.

(** ** The labels of a project *)
(** [l] is the label of a heading or caption of a project, whose labels have been loaded with the history [h] and are
    then used in the state [m]; there is no other label with its id *)
Record labelled (h : list op) (e : Labels.env) (m : manager) (a : list label) (l : label) (b : list label) : Prop := {
  ld_fresh : fresh (run h);
  ld_now : m = run h \/ m = register e (run h);
  ld_labels : project_labels e h = a ++ l :: b;
  ld_content : l_content l = true;
  ld_strip : strip (l_id l) = l_id l;
  ld_names : names_label (sep_of (e_sep e)) (l_id l);
  ld_only : only_label (project_labels e h) l }.

Section Labelled.
Context {h e m a l b} (L : labelled h e m a l b).
Lemma register_now : register e m = register e (run h).
Proof.
  destruct (ld_now _ _ _ _ _ _ L) as [->| ->]; [reflexivity|]. unfold register at 1.
  assert (R : m_registered (register e (run h)) = true) by (unfold register; destruct (m_registered (run h)) eqn:E; [exact E|reflexivity]).
  now rewrite R.
Qed.
Lemma found_now : fst (get_label e (e_sep e) (l_id l) m) = Ok l.
Proof.
  assert (F : fst (get_label e (e_sep e) (l_id l) (run h)) = Ok l).
  { apply found_only; [exact (ld_names _ _ _ _ _ _ L)| |reflexivity|exact (ld_only _ _ _ _ _ _ L)].
    rewrite (ld_labels _ _ _ _ _ _ L). apply in_or_app. right. now left. }
  unfold get_label in *. rewrite register_now. exact F.
Qed.
Lemma deref_now u x : In x (project_labels e h) -> l_uid x = u -> deref (labels_now e m) (Some u) = Some x.
Proof.
  intros I E. unfold labels_now. rewrite register_now. cbn [deref]. subst u. apply find_uid; [|exact I].
  destruct (Proof.Labels.Inv_register e _ (Proof.Labels.Inv_run h)) as (_ & _ & U & _). exact U.
Qed.
Lemma numbered cls ks : l_kind l = Some (ks ++ [cls]) -> exists n, label_number (Some l) = Some n /\ own_number l n /\
  Labels.number (reset_by e) (met a ++ ks ++ [cls]) cls n.
Proof.
  intros K. destruct (C15_numbers (run h) e a l b _ (proj1 (ld_fresh _ _ _ _ _ _ L)) (ld_labels _ _ _ _ _ _ L) K) as (ns & E & Hl & N).
  rewrite app_length in Hl. cbn [length] in Hl. destruct (exists_last (l := ns)) as (o & n & En); [intros ->; cbn in Hl; lia|].
  subst ns. rewrite app_length in Hl. cbn [length] in Hl. exists n. split; [|split].
  - cbn [label_number]. rewrite E. assert (El : last (o ++ [n]) 0 = n) by apply last_last. destruct (o ++ [n]) as [|y z] eqn:Eo; [now destruct o|]. now rewrite El.
  - now exists o.
  - specialize (N (length ks) cls n). rewrite firstn_all2 in N by (rewrite app_length; cbn [length]; lia). apply N.
    + rewrite nth_error_app2, Nat.sub_diag by lia. reflexivity.
    + rewrite nth_error_app2 by lia. replace (length ks - length o) with 0 by lia. reflexivity.
Qed.
Lemma own_link v : is_heading v l -> deref (labels_now e m) (link v l) = Some l.
Proof.
  intros Hv. pose proof (C18_links h e a l b v (ld_fresh _ _ _ _ _ _ L) (ld_labels _ _ _ _ _ _ L) (ld_content _ _ _ _ _ _ L)) as C.
  assert (En : encloses (Spec.Labels.content (a ++ [l])) v l).
  { exists (Spec.Labels.content a), nil. split; [|split; [exact Hv|intros x w []]]. unfold Spec.Labels.content. rewrite filter_app. cbn [filter].
    now rewrite (ld_content _ _ _ _ _ _ L). }
  destruct (link v l) as [u|]; [|now elim (C l)]. destruct C as (x & Hx & E).
  rewrite (C18_enclosing_unique _ _ _ _ Hx En) in E. apply deref_now; [|exact E].
  rewrite (ld_labels _ _ _ _ _ _ L). apply in_or_app. right. now left.
Qed.
Lemma tree_now : numbers (Spec.Labels.content (a ++ [l])) (tree_number (labels_now e m) l).
Proof.
  unfold labels_now. rewrite register_now.
  exact (C18_tree_number h e a l b (ld_fresh _ _ _ _ _ _ L) (ld_labels _ _ _ _ _ _ L) (ld_content _ _ _ _ _ _ L)).
Qed.
(** numbers start at 1 *)
Lemma number_pos R evs k n : ~ In k (R k) -> Labels.number R (evs ++ [k]) k n -> 1 <= n.
Proof.
  intros Hk (p & q & E & Hp & Hq & ->). destruct (exists_last (l := q)) as (q' & k' & ->) || idtac.
  - intros ->. rewrite app_nil_r in E. destruct Hp as [->|(p' & k' & -> & Hr)]; [destruct evs; discriminate|].
    apply app_inj_tail in E as [_ <-]. contradiction.
  - rewrite app_assoc in E. apply app_inj_tail in E as [_ <-]. rewrite filter_app, app_length. cbn [filter]. rewrite eqb_refl. cbn [length]. lia.
Qed.
End Labelled.

(** ** Counters *)
Lemma digits_nonempty f : forall n acc, f <> 0 -> digits_aux f n acc <> [].
Proof.
  induction f as [|f IH]; intros n acc Hf; [congruence|]. cbn [digits_aux]. destruct (N.ltb n 10); [discriminate|].
  destruct f; [cbn [digits_aux]; discriminate|apply IH; discriminate].
Qed.
Lemma setcounter uw pv cls dg : In cls headings -> dg <> [] -> (forall c, In c dg -> (48 <= c <= 57)%N) ->
  pv cls = PStr -> pv dg = PInt ->
  tex_cmd tex_cmd_arguments tex_cmd_optionals (lit "setcounter") (load uw pv nil (cls ++ lit " " ++ dg)) None None =
  Ok (lit "\setcounter{" ++ cls ++ lit "}{" ++ dg ++ lit "}").
Proof.
  intros Hc Hd Hr P1 P2.
  assert (Sd : strip_attr dg = dg).
  { unfold strip_attr. destruct (contains dg sep) eqn:E; [|reflexivity]. apply contains_iff in E as (x & y & E).
    assert (I : In 46%N dg) by (rewrite E; apply in_or_app; right; now left). apply Hr in I. lia. }
  assert (Sc : strip_attr cls = cls) by (cbn [headings In] in Hc; repeat (destruct Hc as [<-|Hc]; [reflexivity|]); destruct Hc).
  assert (Hne : forall c x, (c < 48 \/ 57 < c)%N -> eqb (c :: x) dg = false /\ eqb dg (c :: x) = false).
  { intros c x Hx. assert (dg <> c :: x) by (intros ->; specialize (Hr c (or_introl eq_refl)); lia). split; apply eqb_neq; congruence. }
  assert (G : forall k p, (forall c, In c k -> Spec.Attributes.good_pos_char c) -> k <> [] -> ~ In 46%N k -> pv k = p ->
     Spec.Attributes.good_entry uw pv (k, VPos p)).
  { intros k p A B C D. split; [exact B|]. split; [exact A|]. intros x [[_ ->]|(t & _ & E)]; [now symmetry|].
    exfalso. apply C. rewrite E. unfold Spec.Attributes.for_target. apply in_or_app. right. now left. }
  assert (Gd : forall c, In c dg -> Spec.Attributes.good_pos_char c).
  { intros c I. apply Hr in I. split.
    - assert (Q : In c [48; 49; 50; 51; 52; 53; 54; 55; 56; 57]%N) by (cbn [In]; lia).
      cbn [In] in Q. repeat (destruct Q as [<-|Q]; [reflexivity|]). destruct Q.
    - cbn. lia. }
  assert (Gc : (forall c, In c cls -> Spec.Attributes.good_pos_char c) /\ cls <> [] /\ ~ In 46%N cls /\ (exists c x, cls = c :: x /\ (57 < c)%N) /\ eqb cls (lit "self") = false).
  { clear -Hc. cbn [headings In] in Hc.
    assert (Q : forallb (fun c => negb (is_space c) && negb (mem c [44; 91; 93; 61; 34; 39]%N)) cls = true /\ cls <> [] /\ mem 46%N cls = false /\ (exists c x, cls = c :: x /\ (57 < c)%N) /\ eqb cls (lit "self") = false).
    { repeat (destruct Hc as [<-|Hc]; [split; [reflexivity|]; split; [discriminate|]; split; [reflexivity|]; split; [eexists _, _; split; [reflexivity|reflexivity]|reflexivity]|]). destruct Hc. }
    destruct Q as (Q1 & Q2 & Q3 & Q4 & Q5). split; [|split; [exact Q2|split; [now apply mem_not_In|split; assumption]]].
    intros c I. rewrite forallb_forall in Q1. specialize (Q1 c I). apply andb_true_iff in Q1 as [A B]. apply negb_true_iff in A, B.
    split; [exact A|]. now apply mem_not_In. }
  destruct Gc as (Gc & Nc & Dc & (c0 & x0 & Ec & Lc) & Scf).
  assert (Ncd : eqb cls dg = false /\ eqb dg cls = false) by (rewrite Ec; apply Hne; lia).
  assert (El : load uw pv nil (cls ++ lit " " ++ dg) = [(cls, VPos PStr); (dg, VPos PInt)]).
  { change (cls ++ lit " " ++ dg) with (html [(cls, VPos PStr); (dg, VPos PInt)]). apply Props.Attributes.C03_html_round_trip.
    - unfold wf. cbn [keys map fst]. constructor; [|constructor; [intros []|constructor]]. intros [I|[]]. subst dg.
      destruct Ncd as [Ncd _]. rewrite eqb_refl in Ncd. discriminate.
    - constructor; [apply G; auto|]. constructor; [|constructor]. apply G; auto. intros I. apply Hr in I. lia. }
  rewrite El. clear El. unfold tex_cmd, tex_params.
  change (lookup (lit "setcounter") tex_cmd_arguments) with (Some [RPos PStr; RPos PInt]).
  change (lookup (lit "setcounter") tex_cmd_optionals) with (@None (list areq)).
  change (negb (has (lit "setcounter") tex_cmd_arguments) && negb (has (lit "setcounter") tex_cmd_optionals)) with false. cbv iota.
  set (d := [(cls, VPos PStr); (dg, VPos PInt)]) in *.
  assert (B : forall p, lookup (join sep [areq_str (RPos p); lit "tex"]) d = None).
  { intros p. apply lookup_None. cbn [d keys map fst]. intros [I|[I|[]]].
    - rewrite Ec in I. destruct p; injection I as I _; subst c0; clear -Hc Ec; cbn [headings In] in Hc;
        repeat (destruct Hc as [<-|Hc]; [discriminate Ec|]); destruct Hc.
    - assert (J : In 60%N dg) by (rewrite I; destruct p; now left). apply Hr in J. lia. }
  assert (F1 : find_item d (RPos PStr) (Some (lit "tex")) = Some (cls, VPos PStr)).
  { unfold find_item. change (norm_target (Some (lit "tex"))) with (Some (lit "tex")). cbv iota beta. rewrite B.
    change (filter _ d) with [(cls, VPos PStr)]. cbv zeta. cbn [filter fst].
    change (lit "tex") with [116%N; 101%N; 120%N]. cbv iota beta. cbn [filter fst]. destruct (endswith _ _); reflexivity. }
  assert (F2 : find_item d (RPos PInt) (Some (lit "tex")) = Some (dg, VPos PInt)).
  { unfold find_item. change (norm_target (Some (lit "tex"))) with (Some (lit "tex")). cbv iota beta. rewrite B.
    change (filter _ d) with [(dg, VPos PInt)]. cbv zeta. cbn [filter fst].
    change (lit "tex") with [116%N; 101%N; 120%N]. cbv iota beta. cbn [filter fst]. destruct (endswith _ _); reflexivity. }
  assert (F : filter_attrs d (Some [RPos PStr; RPos PInt]) (Some (lit "tex")) true true = Ok d).
  { unfold filter_attrs. change (norm_target (Some (lit "tex"))) with (Some (lit "tex")).
    change (ListUtils.uniq [RPos PStr; RPos PInt]) with [RPos PStr; RPos PInt]. cbv zeta. cbv iota.
    change (filter_removed [RPos PStr; RPos PInt] (Some (lit "tex"))) with (@nil areq).
    change (filter (fun a : areq => negb (mem a [])) [RPos PStr; RPos PInt]) with [RPos PStr; RPos PInt]. cbn [fold_left].
    rewrite F1, F2.
    assert (E : set dg (VPos PInt) (set cls (VPos PStr) nil) = d).
    { cbn [set]. rewrite (proj2 Ncd). reflexivity. }
    rewrite E. unfold strip_attrs, copy.
    assert (Hs : has (lit "self") d = false).
    { unfold has, d. cbn [lookup]. rewrite (eqb_sym (lit "self") cls), Scf. change (lit "self") with (115%N :: lit "elf"). rewrite (proj1 (Hne 115%N (lit "elf") ltac:(right; lia))). reflexivity. }
    rewrite Hs. cbn [bind d keys map fst filter].
    unfold is_target_specific. rewrite Sc, Sd, !eqb_refl. cbn [negb map filter mem existsb fold_left lookup].
    unfold d at 1 2 3. cbn [lookup]. rewrite !eqb_refl, (proj2 Ncd), Sc, Sd. rewrite E. reflexivity. }
  rewrite F. unfold d. cbn [bind length Nat.eqb]. unfold tex_arguments, tex_arg. cbn [map concat fst snd indented]. rewrite !app_nil_r.
  f_equal. rewrite <- !app_assoc. reflexivity.
Qed.

(** ** Theorems *)
Section Rendering.
Variables (lower : str -> str) (uw : char -> bool) (pv : str -> ptype) (inactive : list str).
Variables (verbatim untouched : str -> bool).
Variables (to_float : str -> option num) (times100 : num -> num) (xml_char : char -> bool) (entity_name : str -> bool)
          (name2codepoint : str -> option N) (block : TagParser.content -> bool).
Variables (other_tex : bool -> TagParser.content -> result str) (other_html : bool -> TagParser.content -> result node).
Variables (title : label -> str) (misc : lobj -> str -> option lobj) (repr : lobj -> str).
Variable rounds : nat.
Variable ctx : dict str lobj.
(** Objects have no attribute with an empty name, and None none that starts with '@' *)
Hypothesis misc_empty : forall o, misc o nil = None.
Hypothesis misc_none : forall p, misc ONone (64%N :: p) = None.
Hypothesis Hr : 2 <= rounds.
(** What is read as a number, and what is not *)
Hypothesis pv_numbers : forall n, pv (str_of_nat n) = PInt.
Hypothesis pv_headings : forall cls, In cls headings -> pv cls = PStr.

Notation format_string := (format_string uw title misc repr rounds default_fmts).
Notation made := (made uw verbatim untouched title misc repr rounds ctx).
Notation heading_tex := (heading_tex lower uw pv inactive verbatim untouched block other_tex title misc repr rounds default_fmts ctx).
Notation heading_html := (heading_html lower uw pv inactive verbatim untouched to_float times100 xml_char entity_name name2codepoint other_html title misc repr rounds default_fmts ctx).
Notation heading_default := (heading_default uw verbatim untouched title misc repr rounds default_fmts ctx).
Notation label_html := (label_html lower uw pv inactive verbatim untouched to_float times100 xml_char entity_name name2codepoint other_html title misc repr rounds default_fmts ctx).
Notation caption_tex := (caption_tex lower uw pv inactive verbatim untouched block other_tex title misc repr rounds default_fmts ctx).
Notation caption_html := (caption_html lower uw pv inactive verbatim untouched to_float times100 xml_char entity_name name2codepoint other_html title misc repr rounds default_fmts ctx).
Notation caption_default := (caption_default uw verbatim untouched title misc repr rounds default_fmts ctx).
Notation ref_content := (ref_content uw verbatim untouched title misc repr rounds default_fmts ctx).

Definition target_of (t : option str) : Prop := In t [None; Some (lit "tex"); Some (lit "html")].

Lemma made_text e m x : ~ In 64%N x -> made e m x = Ok (Text (typography uw x)).
Proof.
  intros H. unfold Model.LabelTags.made, Model.LabelTags.replace. rewrite (replace_no_at uw is_none ONone _ _ rounds _ x H). cbn [bind].
  unfold process_content. cbn [parse_tags Nat.leb tag_max_depth]. rewrite (proj2 (C20_no_tag uw verbatim x)); [reflexivity|].
  intros Ht. destruct Ht as (p & c & r & E & _). apply H. rewrite E. apply in_or_app. right. now left.
Qed.

(** A heading shows its number and its title *)
Theorem C75_heading_text : forall h e m a l b cls,
  labelled h e m a l b -> In cls headings -> l_kind l = Some [lit "heading"; cls] -> ~ In 64%N (title l) ->
  exists x, heading_shown (Spec.Labels.content (a ++ [l])) l (title l) cls x /\ ~ In 64%N x /\
    forall t, target_of t -> format_string e m (l_id l) None t = Ok x.
Proof.
  intros h e m a l b cls L Hc K Ht.
  assert (F : forall f, (forall t, target_of t -> find_entry [lit "heading"; cls] t (lit "_") [default_fmts] = Ok f) ->
    forall t, target_of t ->
    format_string e m (l_id l) None t = Model.LabelTags.replace uw title misc repr rounds e m f [(lit "@label", OLabel l)]).
  { intros f Ef t T. unfold Model.LabelTags.format_string. rewrite (found_now L). cbn [bind]. rewrite K. cbn [bind]. rewrite (Ef t T). reflexivity. }
  destruct (numbered L cls [lit "heading"] K) as (n & Hn & Ho & _).
  assert (Lv : forall v, level_name v = cls -> is_heading v l) by (intros v <-; exists [lit "heading"]; exact K).
  pose proof (ld_content _ _ _ _ _ _ L) as LC.
  assert (NA : forall y, ~ In 64%N y -> ~ In 64%N (y ++ lit ". " ++ title l)).
  { intros y Hy I. apply in_app_iff in I as [I|I]; [now apply Hy|]. apply in_app_iff in I as [I|I]; [cbn in I; intuition discriminate|now apply Ht]. }
  assert (Low : In cls [lit "section"; lit "subsection"; lit "subsubsection"] ->
    (forall t, target_of t -> find_entry [lit "heading"; cls] t (lit "_") [default_fmts] = Ok (lit "@label.tree_number. @label.title")) ->
    exists x, heading_shown (Spec.Labels.content (a ++ [l])) l (title l) cls x /\ ~ In 64%N x /\
      forall t, target_of t -> format_string e m (l_id l) None t = Ok x).
  { intros Hl Ef. exists (tree_number (labels_now e m) l ++ lit ". " ++ title l). split; [|split].
    - apply shown_lower; [exact Hl|exact (tree_now L)].
    - apply NA, tree_no_at.
    - intros t T. rewrite (F _ Ef t T).
      apply (replace_numbered uw title misc repr rounds e m Hr l nil (lit "tree_number") (OText (tree_number (labels_now e m) l)));
        [exact LC|exact Ht|intros []|reflexivity|cbn; intuition discriminate|discriminate| |reflexivity|apply misc_empty|apply tree_no_at].
      unfold attr. rewrite LC. reflexivity. }
  cbn [headings In] in Hc.
  destruct Hc as [<-|[<-|[<-|[<-|[<-|[<-|[]]]]]]].
  - exists (title l). split; [constructor|]. split; [exact Ht|].
    intros t T. rewrite (F (lit "@label.title")); [now apply replace_title| |exact T]. intros u [<-|[<-|[<-|[]]]]; reflexivity.
  - exists (lit "Part " ++ str_of_nat n ++ lit ". " ++ title l). split; [now constructor|]. split.
    { rewrite app_assoc. apply NA. intros I. apply in_app_iff in I as [I|I]; [cbn in I; intuition discriminate|apply nat_no in I; [exact I|lia]]. }
    intros t T. rewrite (F (lit "Part @label.part_number. @label.title")); [| |exact T]; [|intros u [<-|[<-|[<-|[]]]]; reflexivity].
    pose proof (own_link L Part (Lv Part eq_refl)) as D. cbn [link] in D.
    assert (N : number_of e m (part_link (l_links l)) = ONum n) by (unfold number_of; rewrite D, Hn; reflexivity).
    apply (replace_numbered uw title misc repr rounds e m Hr l (lit "Part ") (lit "part_number") (ONum n));
      [exact LC|exact Ht|cbn; intuition discriminate|reflexivity|cbn; intuition discriminate|discriminate| |reflexivity|apply misc_empty|apply nat_no; lia].
    unfold attr. rewrite LC, N. reflexivity.
  - exists (lit "Chapter " ++ str_of_nat n ++ lit ". " ++ title l). split; [now constructor|]. split.
    { rewrite app_assoc. apply NA. intros I. apply in_app_iff in I as [I|I]; [cbn in I; intuition discriminate|apply nat_no in I; [exact I|lia]]. }
    intros t T. rewrite (F (lit "Chapter @label.chapter_number. @label.title")); [| |exact T]; [|intros u [<-|[<-|[<-|[]]]]; reflexivity].
    pose proof (own_link L Chapter (Lv Chapter eq_refl)) as D. cbn [link] in D.
    assert (N : number_of e m (chapter_link (l_links l)) = ONum n) by (unfold number_of; rewrite D, Hn; reflexivity).
    apply (replace_numbered uw title misc repr rounds e m Hr l (lit "Chapter ") (lit "chapter_number") (ONum n));
      [exact LC|exact Ht|cbn; intuition discriminate|reflexivity|cbn; intuition discriminate|discriminate| |reflexivity|apply misc_empty|apply nat_no; lia].
    unfold attr. rewrite LC, N. reflexivity.
  - apply Low; [now left|]. intros u [<-|[<-|[<-|[]]]]; reflexivity.
  - apply Low; [right; now left|]. intros u [<-|[<-|[<-|[]]]]; reflexivity.
  - apply Low; [right; right; now left|]. intros u [<-|[<-|[<-|[]]]]; reflexivity.
Qed.

Lemma cmd_plain name d x : lookup name tex_cmd_arguments = Some [] -> lookup name tex_cmd_optionals = None ->
  cmd name d x = Ok (lit "\" ++ name ++ lit "{" ++ x ++ lit "}").
Proof.
  intros A B. unfold cmd, tex_cmd, tex_params, has. rewrite A, B. cbn [negb andb].
  change (filter_attrs d (Some nil) (Some (lit "tex")) true true) with (Ok (@nil (str * aval))). reflexivity.
Qed.
Lemma anchor_text e m math id : ~ In 64%N id ->
  anchor_tex lower uw pv inactive verbatim untouched block other_tex title misc repr rounds ctx e m math id =
  Ok (lit "\label{" ++ typography uw id ++ lit "}").
Proof.
  intros H. unfold anchor_tex. rewrite made_text by exact H. cbn [bind TexFmt.tex_fmt]. now rewrite cmd_plain.
Qed.
Definition texts (x : str) : list node := match x with [] => [] | _ => [NText x] end.
Lemma texts_filter x : filter not_empty [NText x] = texts x.
Proof. destruct x; reflexivity. Qed.

(** The renderings of a heading with its label.  LaTeX increases the counter before it shows the heading, so that the
    counter is the number of the heading. *)
Theorem C75_heading : forall h e m a l b cls,
  labelled h e m a l b -> In cls headings -> l_kind l = Some [lit "heading"; cls] -> ~ In 64%N (title l) -> ~ In 64%N (l_id l) ->
  ~ In cls (reset_by e cls) ->
  exists x n,
    heading_shown (Spec.Labels.content (a ++ [l])) l (title l) cls x /\ own_number l (S n) /\
    heading_default e m (l_id l) = Ok (typography uw x) /\
    (forall math d, heading_tex e m math cls d (l_id l) =
       Ok (lit "\setcounter{" ++ cls ++ lit "}{" ++ str_of_nat n ++ lit "}" ++ [10%N] ++
           lit "\" ++ cls ++ lit "{" ++ typography uw x ++ lit "} \label{" ++ typography uw (l_id l) ++ lit "}")) /\
    (forall xh d r, wf d -> lookup (lit "id") d = Some (VStr (l_id l)) -> heading_html e m xh cls d (l_id l) = Ok r ->
       exists k at_, lookup cls html_heading = Some k /\ lookup (lit "id") at_ = Some (VStr (l_id l)) /\
         r = NElem k at_ [NElem (lit "span") [(lit "class", VStr (lit "label"))] (texts (typography uw x))]).
Proof.
  intros h e m a l b cls L Hc K Ht Hi Hself.
  destruct (C75_heading_text h e m a l b cls L Hc K Ht) as (x & Hx & Hat & F).
  destruct (numbered L cls [lit "heading"] K) as (n & Hn & Ho & Hnum).
  rewrite app_assoc in Hnum. pose proof (number_pos _ _ _ _ Hself Hnum) as Hp. destruct n as [|n]; [lia|].
  exists x, n. split; [exact Hx|]. split; [exact Ho|].
  assert (T1 : target_of None) by now left. assert (T2 : target_of (Some (lit "tex"))) by (right; now left).
  assert (T3 : target_of (Some (lit "html"))) by (right; right; now left).
  pose proof (ld_strip _ _ _ _ _ _ L) as S1.
  split; [|split].
  - unfold Model.LabelTags.heading_default, label_default. rewrite S1, (F _ T1). cbn [bind]. rewrite made_text by exact Hat. reflexivity.
  - intros math d. unfold Model.LabelTags.heading_tex, label_tex. rewrite S1, (F _ T2). cbn [bind]. rewrite made_text by exact Hat.
    cbn [bind TexFmt.tex_fmt].
    assert (Cc : lookup cls tex_cmd_arguments = Some [] /\ lookup cls tex_cmd_optionals = None).
    { clear -Hc. cbn [headings In] in Hc. repeat (destruct Hc as [<-|Hc]; [split; reflexivity|]). destruct Hc. }
    rewrite cmd_plain by apply Cc. cbn [bind]. rewrite (found_now L). cbn [bind]. rewrite Hn. cbn [pred_text].
    rewrite setcounter; [|exact Hc| | |now apply pv_headings|apply pv_numbers].
    + cbn [bind]. rewrite anchor_text by exact Hi. cbn [bind]. f_equal. rewrite <- !app_assoc. reflexivity.
    + unfold str_of_nat, str_of_N. apply digits_nonempty. discriminate.
    + intros c. apply nat_digits.
  - intros xh d r W Hid E. unfold Model.LabelTags.heading_html in E. destruct (lookup cls html_heading) as [k|] eqn:Ek; [|discriminate].
    destruct (label_html e m xh (l_id l)) as [sp|] eqn:Es; [|discriminate]. cbn [bind] in E.
    unfold Model.LabelTags.label_html in Es. rewrite S1, (F _ T3) in Es. cbn [bind] in Es. rewrite made_text in Es by exact Hat.
    cbn [bind nodes HtmlFmt.html_fmt] in Es.
    apply HtmlFmt.element_inv in Es as (n1 & e1 & X1 & ->). apply HtmlFmt.element_inv in E as (n2 & e2 & X2 & ->).
    assert (Y1 : xhtml_tag xhtml_tag_arguments xhtml_tag_optionals (lit "span") [(lit "class", VStr (lit "label"))] None =
       Ok (lit "span", [(lit "class", VStr (lit "label"))])) by reflexivity.
    rewrite Y1 in X1. apply (f_equal (fun o => match o with Ok y => y | Raise _ => (nil, nil) end)) in X1. cbv beta iota in X1.
    assert (n1 = lit "span") by congruence. assert (e1 = [(lit "class", VStr (lit "label"))]) by congruence. subst n1 e1.
    destruct (HtmlFmt.tag_spec _ _ _ _ W X2) as (Hk & _ & Ha).
    exists k, e2. split; [reflexivity|].
    assert (Q : n2 = k /\ In (lit "id") (Spec.Formats.names xhtml_tag_arguments k ++ Spec.Formats.names xhtml_tag_optionals k)).
    { clear -Hc Ek Hk. cbn [headings In] in Hc.
      repeat (destruct Hc as [<-|Hc]; [apply (f_equal (fun o => match o with Some y => y | None => nil end)) in Ek; vm_compute in Ek; subst k; split; [exact Hk|apply mem_In; reflexivity]|]).
      destruct Hc. }
    destruct Q as [-> Q]. split; [apply Ha; left; split; assumption|]. rewrite texts_filter. reflexivity.
Qed.
Section Captions.
Hypothesis b_bold : class_of lower inactive (lit "b") = Some (lit "bold").
Hypothesis b_read : verbatim (lit "b") = false /\ untouched (lit "b") = false.
Hypothesis b_macro : lookup (lit "@b") ctx = None.
Hypothesis marks : Spec.Typography.marks_are_no_words uw.

Lemma no_count x c : ~ In c x -> count_occ N.eq_dec x c = 0.
Proof. intros H. now apply count_occ_not_In. Qed.
Lemma no_braces i : ~ In 123%N i -> ~ In 125%N i -> balanced i /\ nesting 8 i.
Proof.
  intros A B. split; [split|].
  - unfold opens, closes. now rewrite !no_count.
  - intros p q ->. unfold closes. rewrite no_count; [lia|]. intros I. apply B. apply in_or_app. now left.
  - intros p q ->. unfold opens. rewrite no_count; [lia|]. intros I. apply A. apply in_or_app. now left.
Qed.
Lemma no_tag x : ~ In 64%N x -> ~ has_tag x.
Proof. intros H (p & c & r & E & _). apply H. rewrite E. apply in_or_app. right. now left. Qed.
Lemma parse_bold i r : ~ In 123%N i -> ~ In 125%N i -> ~ In 64%N i -> ~ In 64%N r ->
  parse_text uw verbatim (lit "@b{" ++ i ++ lit "}" ++ r) = Ok (match r with [] => Tag (lit "b") None (Text i) | _ => Items [Tag (lit "b") None (Text i); Text r] end).
Proof.
  intros A B C D. destruct (no_braces i A B) as [Hb Hn]. rewrite parse_text_items, items_step.
  assert (Tn : tag_name uw (lit "b")) by (exists 98%N, nil; split; [reflexivity|split; [reflexivity|constructor]]).
  assert (Hs : search_open uw (lit "@b{" ++ i ++ lit "}" ++ r) = Some (nil, (lit "b", None, true, i ++ lit "}" ++ r))).
  { exact (search_open_written uw nil (lit "b") None (i ++ lit "}" ++ r) has_tag_nil Tn I). }
  rewrite Hs.
  assert (Ec : close_brace 1 (i ++ lit "}" ++ r) = Some (i, r)).
  { change (lit "}") with [125%N]. apply close_brace_iff; [lia|]. split; [reflexivity|]. apply inside_1. auto. }
  rewrite Ec. cbn [bind fst snd]. rewrite (proj1 b_read), (proj2 (C20_no_tag uw verbatim i) (no_tag i C)). cbn [bind].
  rewrite items_step, (proj2 (search_open_none uw verbatim r) (no_tag r D)). cbn [bind]. destruct r; reflexivity.
Qed.
Lemma caption_fixed name n : In name [lit "Fig. "; lit "Table "] -> typography uw (name ++ str_of_nat n) = name ++ str_of_nat n.
Proof.
  intros Hn. assert (Ch : forall c, In c (name ++ str_of_nat n) -> ~ In c [45; 39; 34; 8211; 8212; 123; 125; 64]%N).
  { intros c I. apply in_app_iff in I as [I|I].
    - destruct Hn as [<-|[<-|[]]]; cbn in I; repeat (destruct I as [<-|I]; [cbn; intuition discriminate|]); destruct I.
    - apply nat_digits in I. cbn [In]. lia. }
  apply (C51_unchanged uw marks).
  - split; [|split].
    + destruct (contains _ _) eqn:E; [|reflexivity]. apply contains_iff in E as (p & q & E). exfalso. apply (Ch 45%N); [|now left].
      rewrite E. apply in_or_app. right. now left.
    + intros I. apply Ch in I. apply I. cbn. tauto.
    + intros I. apply Ch in I. apply I. cbn. tauto.
  - intros I. apply Ch in I. apply I. cbn. tauto.
  - intros I. apply Ch in I. apply I. cbn. tauto.
Qed.
(** the content of the label of a caption and of a reference to it *)
Lemma caption_made e m name n r : In name [lit "Fig. "; lit "Table "] -> ~ In 64%N r -> typography uw r = r ->
  made e m (lit "@b{" ++ name ++ str_of_nat n ++ lit "}" ++ r) =
  Ok (match r with [] => Tag (lit "b") None (Text (name ++ str_of_nat n)) | _ => Items [Tag (lit "b") None (Text (name ++ str_of_nat n)); Text r] end).
Proof.
  intros Hn D T. unfold Model.LabelTags.made.
  assert (Ch : forall c, In c [64; 123; 125]%N -> ~ In c (name ++ str_of_nat n)).
  { intros c Hc I. apply in_app_iff in I as [I|I].
    - destruct Hn as [<-|[<-|[]]]; cbn in Hc, I; repeat (destruct Hc as [<-|Hc]; [intuition discriminate|]); destruct Hc.
    - apply nat_digits in I. cbn [In] in Hc. lia. }
  rewrite (replace_bold uw title misc repr rounds e m misc_none Hr ctx name (str_of_nat n ++ lit "}" ++ r)); [|exact b_macro| |exact Hn].
  2:{ intros I. apply in_app_iff in I as [I|I]; [apply nat_no in I; [exact I|lia]|]. apply in_app_iff in I as [[I|[]]|I]; [discriminate I|now apply D]. }
  cbn [bind]. unfold process_content. cbn [parse_tags Nat.leb tag_max_depth].
  rewrite (app_assoc name). rewrite parse_bold; [|apply Ch; cbn; tauto|apply Ch; cbn; tauto|apply Ch; cbn; tauto|exact D]. cbn [bind].
  destruct r as [|c r]; cbn [typo map]; rewrite (proj2 b_read), caption_fixed by exact Hn; [reflexivity|]. now rewrite T.
Qed.

(** A caption of a figure or table shows its kind and its number in bold before its text *)
Theorem C75_caption : forall h e m a l b k name,
  labelled h e m a l b -> In (k, name) caption_names -> l_kind l = Some [lit "caption"; k] -> ~ In 64%N (l_id l) ->
  exists n,
    own_number l n /\ Labels.number (reset_by e) (met a ++ [lit "caption"; k]) k n /\
    (forall c y, plain_text c = Ok y -> caption_default e m (Some (l_id l)) c = Ok (name ++ str_of_nat n ++ lit ". " ++ y)) /\
    (forall math d c y, tex_fmt lower uw pv inactive block other_tex math c = Ok y ->
       caption_tex e m math (Some (l_id l)) d c =
       Ok (lit "\caption{\textbf{" ++ name ++ str_of_nat n ++ lit "}. " ++ y ++ lit "} \label{" ++ typography uw (l_id l) ++ lit "}")) /\
    (forall xh d c ns r, wf d -> lookup (lit "id") d = Some (VStr (l_id l)) ->
       nodes lower uw pv inactive to_float times100 xml_char entity_name name2codepoint other_html xh c = Ok ns ->
       caption_html e m xh (Some (l_id l)) d c = Ok r ->
       exists at_, lookup (lit "id") at_ = Some (VStr (l_id l)) /\
         r = NElem (lit "span") at_ (NElem (lit "span") [(lit "class", VStr (lit "label"))]
               [NElem (lit "strong") [] [NText (name ++ str_of_nat n)]; NText (lit ". ")] :: filter not_empty ns)).
Proof.
  intros h e m a l b k name L Hk K Hi.
  destruct (numbered L k [lit "caption"] K) as (n & Hn & Ho & Hnum). exists n. split; [exact Ho|]. split; [exact Hnum|].
  assert (Nm : In name [lit "Fig. "; lit "Table "]).
  { cbn [caption_names In] in Hk. destruct Hk as [[= _ <-]|[[= _ <-]|[]]]; [now left|right; now left]. }
  assert (F : forall t, target_of t -> format_string e m (l_id l) None t = Ok (lit "@b{" ++ name ++ str_of_nat n ++ lit "}" ++ lit ". ")).
  { intros t T. unfold Model.LabelTags.format_string. rewrite (found_now L). cbn [bind]. rewrite K. cbn [bind].
    assert (Ef : find_entry [lit "caption"; k] t (lit "_") [default_fmts] = Ok (lit "@b{" ++ name ++ lit "@label.number" ++ lit "}. ")).
    { cbn [caption_names In] in Hk. destruct Hk as [[= <- <-]|[[= <- <-]|[]]]; destruct T as [<-|[<-|[<-|[]]]]; reflexivity. }
    rewrite Ef. cbn [bind].
    apply (replace_caption uw title misc repr rounds e m misc_none Hr l name (lit "}. ") n Nm); [cbn; intuition discriminate|exact Hn|].
    intros c r [= <- _]. split; [reflexivity|]. split; [reflexivity|discriminate]. }
  assert (T1 : target_of None) by now left. assert (T2 : target_of (Some (lit "tex"))) by (right; now left).
  assert (T3 : target_of (Some (lit "html"))) by (right; right; now left).
  pose proof (ld_strip _ _ _ _ _ _ L) as S1.
  assert (M : made e m (lit "@b{" ++ name ++ str_of_nat n ++ lit "}" ++ lit ". ") = Ok (Items [Tag (lit "b") None (Text (name ++ str_of_nat n)); Text (lit ". ")])).
  { apply (caption_made e m name n (lit ". ") Nm); [cbn; intuition discriminate|reflexivity]. }
  split; [|split].
  - intros c y Ey. unfold Model.LabelTags.caption_default, label_default. rewrite S1, (F _ T1). cbn [bind]. rewrite M. cbn [bind].
    change (plain_text (Items [Tag (lit "b") None (Text (name ++ str_of_nat n)); Text (lit ". ")])) with (Ok ((name ++ str_of_nat n) ++ lit ". " ++ nil)).
    cbn [bind]. rewrite Ey. cbn [bind]. f_equal. rewrite app_nil_r, <- !app_assoc. reflexivity.
  - intros math d c y Ey. unfold Model.LabelTags.caption_tex, label_tex. rewrite S1, (F _ T2). cbn [bind]. rewrite M. cbn [bind].
    assert (X : tex_fmt lower uw pv inactive block other_tex math (Items [Tag (lit "b") None (Text (name ++ str_of_nat n)); Text (lit ". ")]) =
       Ok (lit "\textbf{" ++ name ++ str_of_nat n ++ lit "}. ")).
    { cbn [tex_fmt]. rewrite b_bold. change (eqb (lit "bold") (lit "body")) with false. cbv iota.
      cbn -[lit app str_of_nat].
      match goal with |- ?g = _ => change g with (do a <- cmd (lit "textbf") nil (name ++ str_of_nat n) ; Ok (a ++ lit ". " ++ nil)) end.
      rewrite cmd_plain by reflexivity. cbn [bind]. f_equal. rewrite app_nil_r, <- !app_assoc. reflexivity. }
    rewrite X. cbn [bind]. rewrite Ey. cbn [bind]. rewrite cmd_plain by reflexivity. cbn [bind]. rewrite anchor_text by exact Hi. cbn [bind].
    f_equal. rewrite <- !app_assoc. reflexivity.
  - intros xh d c ns r W Hid Ens E. unfold Model.LabelTags.caption_html in E. 
    destruct (label_html e m xh (l_id l)) as [sp|] eqn:Es; [|discriminate]. cbn [bind] in E. rewrite Ens in E. cbn [bind app] in E.
    unfold Model.LabelTags.label_html in Es. rewrite S1, (F _ T3) in Es. cbn [bind] in Es. rewrite M in Es. cbn [bind] in Es.
    cbn [nodes map_r] in Es.
    destruct (HtmlFmt.html_fmt lower uw pv inactive to_float times100 xml_char entity_name name2codepoint other_html xh
                (Tag (lit "b") None (Text (name ++ str_of_nat n)))) as [st|] eqn:Eb; [|discriminate].
    assert (B : st = NElem (lit "strong") [] [NText (name ++ str_of_nat n)]).
    { cbn [HtmlFmt.html_fmt] in Eb. rewrite b_bold in Eb.
      change (eqb (lit "bold") (lit "p")) with false in Eb. change (eqb (lit "bold") (lit "symbol")) with false in Eb.
      change (eqb (lit "bold") (lit "supsub")) with false in Eb. change (lookup (lit "bold") html_name) with (Some (lit "strong")) in Eb. cbv iota in Eb.
      change (html_attributes to_float times100 xh (lit "bold") (own_attributes lower inactive (lit "bold") (Text (name ++ str_of_nat n)) (attributes_of uw pv None)))
        with (@Ok attrs nil) in Eb. cbn [bind] in Eb.
      apply HtmlFmt.element_inv in Eb as (n1 & e1 & X1 & ->).
      change (xhtml_tag xhtml_tag_arguments xhtml_tag_optionals (lit "strong") nil None) with (@Ok (str * attrs) (lit "strong", nil)) in X1.
      apply (f_equal (fun o => match o with Ok y => y | Raise _ => (lit "x", nil) end)) in X1. cbv beta iota in X1.
      assert (n1 = lit "strong") by congruence. assert (e1 = nil) by congruence. subst n1 e1.
      assert (Q : forall s, s <> nil -> filter not_empty [NText s] = [NText s]) by (intros [|] W0; [now elim W0|reflexivity]).
      rewrite Q; [reflexivity|]. destruct Nm as [<-|[<-|[]]]; discriminate. }
    subst st. cbn [bind HtmlFmt.html_fmt] in Es.
    apply HtmlFmt.element_inv in Es as (n1 & e1 & X1 & ->). apply HtmlFmt.element_inv in E as (n2 & e2 & X2 & ->).
    assert (Y1 : xhtml_tag xhtml_tag_arguments xhtml_tag_optionals (lit "span") [(lit "class", VStr (lit "label"))] None =
       Ok (lit "span", [(lit "class", VStr (lit "label"))])) by reflexivity.
    rewrite Y1 in X1. apply (f_equal (fun o => match o with Ok y => y | Raise _ => (nil, nil) end)) in X1. cbv beta iota in X1.
    assert (n1 = lit "span") by congruence. assert (e1 = [(lit "class", VStr (lit "label"))]) by congruence. subst n1 e1.
    destruct (HtmlFmt.tag_spec _ _ _ _ W X2) as (Hk' & _ & Ha).
    change (n2 = lit "span") in Hk'. subst n2.
    exists e2. split; [apply Ha; left; split; [apply mem_In; reflexivity|exact Hid]|]. reflexivity.
Qed.

(** ** References *)
(** The text of a reference to a document is the title of the document. *)
Theorem C75_document_refs : forall h e m l,
  m = run h \/ m = register e (run h) -> In l (project_labels e h) -> l_kind l = Some [lit "document"] ->
  strip (l_id l) = l_id l -> names_label (sep_of (e_sep e)) (l_id l) -> only_label (project_labels e h) l -> ~ In 64%N (title l) ->
  forall t, In t [lit "tex"; lit "html"] -> ref_content e m t (l_id l) = Ok (Text (typography uw (title l))).
Proof.
  intros h e m l Hm Hi K S1 Hn Ho Ht t T.
  assert (F : fst (get_label e (e_sep e) (l_id l) m) = Ok l).
  { assert (F : fst (get_label e (e_sep e) (l_id l) (run h)) = Ok l) by (apply found_only; [exact Hn|exact Hi|reflexivity|exact Ho]).
    destruct Hm as [->| ->]; [exact F|]. unfold get_label in *.
    assert (R : m_registered (register e (run h)) = true) by (unfold register; destruct (m_registered (run h)) eqn:E; [exact E|reflexivity]).
    assert (RR : register e (register e (run h)) = register e (run h)) by (unfold register at 1; now rewrite R).
    rewrite RR. exact F. }
  unfold Model.LabelTags.ref_content. rewrite S1, F. cbn [bind]. rewrite K.
  unfold Model.LabelTags.format_string. rewrite F. cbn [bind].
  assert (Ef : find_entry (lit "ref" :: [lit "document"]) (Some t) (lit "_") [default_fmts] = Ok (lit "@label.title"))
    by (destruct T as [<-|[<-|[]]]; reflexivity).
  rewrite Ef. cbn [bind]. rewrite replace_title by assumption. cbn [bind]. now apply made_text.
Qed.
(** The text of a reference, with the default formats: the title of a heading, preceded by the number of a part or of a
    chapter, and the kind and number of a figure or table in bold *)
Theorem C75_refs : forall h e m a l b, labelled h e m a l b ->
  (forall cls, In cls headings -> l_kind l = Some [lit "heading"; cls] -> ~ In 64%N (title l) ->
     exists x, ref_shown l (title l) cls x /\
     forall t, In t [lit "tex"; lit "html"] -> ref_content e m t (l_id l) = Ok (Text (typography uw x))) /\
  (forall k name, In (k, name) caption_names -> l_kind l = Some [lit "caption"; k] ->
     exists n, own_number l n /\
     forall t, In t [lit "tex"; lit "html"] -> ref_content e m t (l_id l) = Ok (Tag (lit "b") None (Text (name ++ str_of_nat n)))).
Proof.
  intros h e m a l b L. pose proof (ld_strip _ _ _ _ _ _ L) as S1. pose proof (ld_content _ _ _ _ _ _ L) as LC.
  assert (F : forall ks f, l_kind l = Some ks ->
    (forall t, In t [lit "tex"; lit "html"] -> find_entry (lit "ref" :: ks) (Some t) (lit "_") [default_fmts] = Ok f) ->
    forall t, In t [lit "tex"; lit "html"] ->
    ref_content e m t (l_id l) =
    (do x <- Model.LabelTags.replace uw title misc repr rounds e m f [(lit "@label", OLabel l)] ; made e m x)).
  { intros ks f K Ef t T. unfold Model.LabelTags.ref_content. rewrite S1, (found_now L). cbn [bind]. rewrite K.
    unfold Model.LabelTags.format_string. rewrite (found_now L). cbn [bind]. rewrite (Ef t T). reflexivity. }
  split.
  - intros cls Hc K Ht.
    destruct (numbered L cls [lit "heading"] K) as (n & Hn & Ho & _).
    assert (Lv : forall v, level_name v = cls -> is_heading v l) by (intros v <-; exists [lit "heading"]; exact K).
    assert (NA : forall y, ~ In 64%N y -> ~ In 64%N (y ++ lit ". " ++ title l)).
    { intros y Hy I. apply in_app_iff in I as [I|I]; [now apply Hy|]. apply in_app_iff in I as [I|I]; [cbn in I; intuition discriminate|now apply Ht]. }
    assert (Tt : In cls [lit "title"; lit "section"; lit "subsection"; lit "subsubsection"] ->
      (forall t, In t [lit "tex"; lit "html"] -> find_entry (lit "ref" :: [lit "heading"; cls]) (Some t) (lit "_") [default_fmts] = Ok (lit "@label.title")) ->
      exists x, ref_shown l (title l) cls x /\
        forall t, In t [lit "tex"; lit "html"] -> ref_content e m t (l_id l) = Ok (Text (typography uw x))).
    { intros Hl Ef. exists (title l). split; [now constructor|]. intros t T. rewrite (F _ _ K Ef t T), replace_title by assumption.
      cbn [bind]. now apply made_text. }
    cbn [headings In] in Hc.
    destruct Hc as [<-|[<-|[<-|[<-|[<-|[<-|[]]]]]]];
      [apply Tt; [cbn; tauto|intros u [<-|[<-|[]]]; reflexivity]| | |apply Tt; [cbn; tauto|intros u [<-|[<-|[]]]; reflexivity]
      |apply Tt; [cbn; tauto|intros u [<-|[<-|[]]]; reflexivity]|apply Tt; [cbn; tauto|intros u [<-|[<-|[]]]; reflexivity]].
    + exists (lit "Part " ++ str_of_nat n ++ lit ". " ++ title l). split; [now constructor|].
      intros t T. rewrite (F _ (lit "Part @label.part_number. @label.title") K); [| |exact T]; [|intros u [<-|[<-|[]]]; reflexivity].
      pose proof (own_link L Part (Lv Part eq_refl)) as D. cbn [link] in D.
      assert (N : number_of e m (part_link (l_links l)) = ONum n) by (unfold number_of; rewrite D, Hn; reflexivity).
      pose proof (replace_numbered uw title misc repr rounds e m Hr l (lit "Part ") (lit "part_number") (ONum n)) as R.
      change (lit "Part @label.part_number. @label.title") with (lit "Part " ++ lit "@label." ++ lit "part_number" ++ lit ". @label.title").
      rewrite R; [|exact LC|exact Ht|cbn; intuition discriminate|reflexivity|cbn; intuition discriminate|discriminate| |reflexivity|apply misc_empty|apply nat_no; lia].
      2:{ unfold attr. rewrite LC, N. reflexivity. }
      cbn [bind show]. apply made_text. rewrite app_assoc. apply NA. intros I. apply in_app_iff in I as [I|I]; [cbn in I; intuition discriminate|apply nat_no in I; [exact I|lia]].
    + exists (lit "Chapter " ++ str_of_nat n ++ lit ". " ++ title l). split; [now constructor|].
      intros t T. rewrite (F _ (lit "Chapter @label.chapter_number. @label.title") K); [| |exact T]; [|intros u [<-|[<-|[]]]; reflexivity].
      pose proof (own_link L Chapter (Lv Chapter eq_refl)) as D. cbn [link] in D.
      assert (N : number_of e m (chapter_link (l_links l)) = ONum n) by (unfold number_of; rewrite D, Hn; reflexivity).
      pose proof (replace_numbered uw title misc repr rounds e m Hr l (lit "Chapter ") (lit "chapter_number") (ONum n)) as R.
      change (lit "Chapter @label.chapter_number. @label.title") with (lit "Chapter " ++ lit "@label." ++ lit "chapter_number" ++ lit ". @label.title").
      rewrite R; [|exact LC|exact Ht|cbn; intuition discriminate|reflexivity|cbn; intuition discriminate|discriminate| |reflexivity|apply misc_empty|apply nat_no; lia].
      2:{ unfold attr. rewrite LC, N. reflexivity. }
      cbn [bind show]. apply made_text. rewrite app_assoc. apply NA. intros I. apply in_app_iff in I as [I|I]; [cbn in I; intuition discriminate|apply nat_no in I; [exact I|lia]].
  - intros k name Hk K. destruct (numbered L k [lit "caption"] K) as (n & Hn & Ho & _). exists n. split; [exact Ho|].
    assert (Nm : In name [lit "Fig. "; lit "Table "]).
    { cbn [caption_names In] in Hk. destruct Hk as [[= _ <-]|[[= _ <-]|[]]]; [now left|right; now left]. }
    assert (Ef : forall t, In t [lit "tex"; lit "html"] ->
      find_entry (lit "ref" :: [lit "caption"; k]) (Some t) (lit "_") [default_fmts] = Ok (lit "@b{" ++ name ++ lit "@label.number" ++ lit "}")).
    { intros t T. cbn [caption_names In] in Hk. destruct Hk as [[= <- <-]|[[= <- <-]|[]]]; destruct T as [<-|[<-|[]]]; reflexivity. }
    intros t T. rewrite (F _ _ K Ef t T).
    rewrite (replace_caption uw title misc repr rounds e m misc_none Hr l name (lit "}") n Nm); [|cbn; intuition discriminate|exact Hn|].
    2:{ intros c r [= <- _]. split; [reflexivity|]. split; [reflexivity|discriminate]. }
    cbn [bind]. exact (caption_made e m name n nil Nm (fun i => i) eq_refl).
Qed.
End Captions.
End Rendering.

(** ** Titles *)
(** The title is the attribute short as it is; otherwise words with spaces between them, that neither begin nor end with a
    period and are one sentence, are their own title *)
Theorem C75_title : forall short,
  (forall t, label_title (Some short) t = short) /\
  (forall ws, Spec.AutoLabels.words ws ->
     (forall c r, join (lit " ") ws = c :: r -> c <> 46%N) -> (forall c r, join (lit " ") ws = r ++ [c] -> c <> 46%N) ->
     ~ Spec.AutoLabels.occurs (lit ". ") (join (lit " ") ws) -> label_title None (join (lit " ") ws) = join (lit " ") ws).
Proof. intros short. split; [reflexivity|]. exact Props.AutoLabels.C64_title_same. Qed.

(** ** Findings *)
(** A heading does not show its content: only its first sentence without the markup, or the attribute short
    (label.py:96-100, headings.py:72-128) *)
Theorem C75_content_refuted :
  ~ (forall short text, contains (label_title short text) text = true).
Proof. intros H. specialize (H None (lit "Dr. Who and others")). vm_compute in H. discriminate H. Qed.
Theorem C75_short_refuted :
  ~ (forall s t1 t2, label_title (Some s) t1 = label_title (Some s) t2 -> t1 = t2).
Proof. intros H. specialize (H (lit "a") (lit "b") (lit "c") eq_refl). discriminate H. Qed.
(** The title of a label is read again, so that text that is no tag in a heading, such as that of a verbatim tag, is a
    tag in what it shows (label.py:267-320) *)
Theorem C75_reread_refuted :
  ~ (forall uw verbatim untouched title misc repr rounds ctx e m x, 2 <= rounds -> (forall o, misc o nil = None) -> lookup (lit "@b") ctx = None ->
       exists y, made uw verbatim untouched title misc repr rounds ctx e m x = Ok (Text y)).
Proof.
  intros H. specialize (H (fun _ => false) (fun _ => false) (fun _ => false) (fun _ => nil) (fun _ _ => None) (fun _ => nil) 2 nil
    (Labels.Env None None None) new_manager (lit "@b{x}") (le_n _) (fun _ => eq_refl) eq_refl).
  destruct H as [y H]. vm_compute in H. discriminate H.
Qed.
(** The id of the anchor in tex is not the id of the label, to which references point (label.py:185-199, ref.py:274-300) *)
Theorem C75_anchor_refuted :
  ~ (forall lower uw pv inactive verbatim untouched block other title misc repr rounds ctx e m math id, 2 <= rounds -> ~ In 64%N id ->
       Spec.Typography.marks_are_no_words uw ->
       anchor_tex lower uw pv inactive verbatim untouched block other title misc repr rounds ctx e m math id = Ok (lit "\label{" ++ id ++ lit "}")).
Proof.
  intros H. specialize (H (fun x => x) (fun _ => false) (fun _ => PStr) nil (fun _ => false) (fun _ => false) (fun _ => false) (fun _ _ => Ok nil) (fun _ => nil)
    (fun _ _ => None) (fun _ => nil) 2 nil (Labels.Env None None None) new_manager false (lit "it's") (le_n _)).
  assert (A : ~ In 64%N (lit "it's")) by (cbn; intuition discriminate). specialize (H A (fun _ _ => eq_refl)).
  vm_compute in H. discriminate H.
Qed.

(** ** Example *)
Definition ex_history : list op :=
  [OAdd (lit "c1") (Some [lit "heading"; lit "chapter"]) true None (Some (lit "a.dm"));
   OAdd (lit "s1") (Some [lit "heading"; lit "section"]) true None (Some (lit "a.dm"));
   OAdd (lit "c2") (Some [lit "heading"; lit "chapter"]) true None (Some (lit "a.dm"));
   OAdd (lit "s2") (Some [lit "heading"; lit "section"]) true None (Some (lit "a.dm"));
   OAdd (lit "f1") (Some [lit "caption"; lit "figure"]) true None (Some (lit "a.dm"))].
Definition ex_env : Labels.env := Labels.Env None (Some [(lit "chapter", [lit "section"])]) (Some [lit "a.dm"]).
Definition ex_labels : list label := project_labels ex_env ex_history.
Definition ex_label : label := nth 3 ex_labels (Label 0 nil nil None true None no_links).
Example C75_ex_labelled : labelled ex_history ex_env (run ex_history) (firstn 3 ex_labels) ex_label (skipn 4 ex_labels).
Proof.
  constructor.
  - split; [reflexivity|]. intros l Hl. vm_compute in Hl. repeat (destruct Hl as [<-|Hl]; [reflexivity|]). destruct Hl.
  - now left.
  - vm_compute. reflexivity.
  - reflexivity.
  - reflexivity.
  - apply no_sep. reflexivity.
  - intros y Hy. vm_compute in Hy.
    repeat (destruct Hy as [<-|Hy]; [first [intros _; vm_compute; reflexivity | intros E; vm_compute in E; discriminate E]|]). destruct Hy.
Qed.
Definition ex_caption : label := nth 4 ex_labels (Label 0 nil nil None true None no_links).
Example C75_ex_caption : labelled ex_history ex_env (run ex_history) (firstn 4 ex_labels) ex_caption [].
Proof.
  constructor.
  - split; [reflexivity|]. intros l Hl. vm_compute in Hl. repeat (destruct Hl as [<-|Hl]; [reflexivity|]). destruct Hl.
  - now left.
  - vm_compute. reflexivity.
  - reflexivity.
  - reflexivity.
  - apply no_sep. reflexivity.
  - intros y Hy. vm_compute in Hy.
    repeat (destruct Hy as [<-|Hy]; [first [intros _; vm_compute; reflexivity | intros E; vm_compute in E; discriminate E]|]). destruct Hy.
Qed.
(** What is read as a number here: digits *)
Definition ex_pv (x : str) : ptype := if forallb (fun c => (48 <=? c)%N && (c <=? 57)%N) x then PInt else PStr.
Definition ex_title (l : label) : str := if eqb (l_id l) (lit "s2") then lit "Two" else lit "One".
Example C75_ex :
  heading_tex (fun x => x) (fun _ => false) ex_pv nil (fun _ => false) (fun _ => false) (fun _ => false) (fun _ _ => Ok nil) ex_title
    (fun _ _ => None) (fun _ => nil) 2 default_fmts nil ex_env (run ex_history) false (lit "section") nil (lit "s2") =
  Ok (lit "\setcounter{section}{0}" ++ [10%N] ++ lit "\section{2.1. Two} \label{s2}") /\
  caption_tex (fun x => x) (fun _ => false) ex_pv nil (fun _ => false) (fun _ => false) (fun _ => false) (fun _ _ => Ok nil) ex_title
    (fun _ _ => None) (fun _ => nil) 2 default_fmts nil ex_env (run ex_history) false (Some (lit "f1")) nil (Text (lit "A view")) =
  Ok (lit "\caption{\textbf{Fig. 1}. A view} \label{f1}") /\
  ~ In (lit "section") (reset_by ex_env (lit "section")) /\ class_of (fun x => x) nil (lit "b") = Some (lit "bold").
Proof. repeat split; try (vm_compute; reflexivity). vm_compute. intros []. Qed.
Definition ex_docs : list op := [OAdd (lit "doc:a") (Some [lit "document"]) false None (Some (lit "a.dm"))].
Example C75_document_ex :
  ref_content (fun _ => false) (fun _ => false) (fun _ => false) ex_title (fun _ _ => None) (fun _ => nil) 2 default_fmts nil
    ex_env (run ex_docs) (lit "html") (lit "doc:a") = Ok (Text (lit "One")) /\
  map l_kind (project_labels ex_env ex_docs) = [Some [lit "document"]].
Proof. split; vm_compute; reflexivity. Qed.

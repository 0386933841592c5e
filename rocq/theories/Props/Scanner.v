(** C50: the files that html files refer to. *)
From Coq Require Import List Bool Arith Lia NArith.
From Verif.Base Require Import Str StrFacts Result PurePath PyText PyTextFacts.
From Verif.Model Require Import Paths Scanner.
From Verif.Spec Require Import Scanner.
From Verif.Proof Require Import Scanner.
Import ListNotations.

(** * C50 *)

(** The references of html text are those of its links, then those of its images, in order,
    without those to other sites. *)
Theorem C50_references :
  forall (l : list (str * element)) (t : str),
    (forall x, In x l -> well_formed (snd x) /\ no_element (fst x)) -> no_element t ->
    html_references (html l t) = filter (fun r => negb (contains r (lit "://"))) (references KLink l ++ references KImage l).
Proof.
  intros l t Hl Ht. unfold html_references. f_equal. f_equal.
  - exact (all_matches_html KLink l t Hl Ht).
  - exact (all_matches_html KImage l t Hl Ht).
Qed.
(** In any text, a reference is the quoted value of an attribute of a link or an image. *)
Theorem C50_references_only :
  forall (content r : str), In r (html_references content) -> local r /\
    exists k a b g q c, content = a ++ lit "<" ++ tag k ++ b ++ attribute k ++ g ++ r ++ q :: c /\
      ~ In 62%N b /\ g <> [] /\ (forall x, In x g -> starts x) /\ quotes q /\ forall x, In x r -> ~ quotes x /\ x <> 10%N.
Proof.
  intros content r H. unfold html_references in H. apply filter_In in H as [H Hl]. split; [apply negb_true_iff, Hl|].
  apply in_app_or in H as [H|H].
  - destruct (find_iter_In (matcher KLink) (matcher_suffix KLink) _ _ _ H) as (a & y & z & -> & E).
    destruct (match_tag_sound KLink _ _ _ E) as (b & g & q & -> & _ & _ & Hr). exists KLink, a, b, g, q, z. split; [reflexivity|exact Hr].
  - destruct (find_iter_In (matcher KImage) (matcher_suffix KImage) _ _ _ H) as (a & y & z & -> & E).
    destruct (match_tag_sound KImage _ _ _ E) as (b & g & q & -> & _ & _ & Hr). exists KImage, a, b, g, q, z. split; [reflexivity|exact Hr].
Qed.

Lemma scan_one_eq file b x l : proper x -> (scan_one file b x = Ok l <-> depends file html_references x l).
Proof.
  intros Hp. unfold scan_one. destruct x as [p|r s|r t s].
  - split; [intros [= <-]; constructor|]. intros H. inversion H; try reflexivity. contradiction.
  - cbn [proper] in Hp. unfold scan_function. destruct (mem (path_suffix (full (Source r s))) html_extensions) eqn:Em.
    + apply mem_In in Em. destruct (file (full (Source r s))) as [c|] eqn:Ef.
      * cbn [place]. unfold path_parent. rewrite Hp. rewrite find_stubs_eq. split.
        -- intros H. econstructor; [exact I|exact Em|exact Ef|exact H].
        -- intros H. inversion H as [|x Hx|x Hx|x c' l' _ _ Hc Hl]; subst; [contradiction|congruence|]. rewrite Ef in Hc. injection Hc as <-. exact Hl.
      * split; [intros [= <-]; apply depends_none, Ef|]. intros H. inversion H; subst; try reflexivity. congruence.
    + apply mem_not_In in Em. split; [intros [= <-]; apply depends_other, Em|]. intros H. inversion H; subst; try reflexivity. contradiction.
  - cbn [proper] in Hp. unfold scan_function. destruct (mem (path_suffix (full (Target r t s))) html_extensions) eqn:Em.
    + apply mem_In in Em. destruct (file (full (Target r t s))) as [c|] eqn:Ef.
      * cbn [place]. unfold path_parent. rewrite Hp. rewrite find_stubs_eq.
        assert (Er : path_join r (of_str (strip_c 46%N t)) = root_of (Target r t s)).
        { cbn [root_of full]. unfold path_join at 2. cbn [absolute parts]. rewrite app_nil_r. destruct (path_join r _); reflexivity. }
        rewrite Er. split.
        -- intros H. econstructor; [exact I|exact Em|exact Ef|exact H].
        -- intros H. inversion H as [|x Hx|x Hx|x c' l' _ _ Hc Hl]; subst; [contradiction|congruence|]. rewrite Ef in Hc. injection Hc as <-. exact Hl.
      * split; [intros [= <-]; apply depends_none, Ef|]. intros H. inversion H; subst; try reflexivity. congruence.
    + apply mem_not_In in Em. split; [intros [= <-]; apply depends_other, Em|]. intros H. inversion H; subst; try reflexivity. contradiction.
Qed.
(** The dependencies of files are those of each, in order. *)
Theorem C50_scan :
  forall (file : path -> option str) (raise_error : bool) (ps out : list xpath),
    (forall x, In x ps -> proper x) ->
    (scan file raise_error ps = Ok out <->
     exists outs, Forall2 (depends file html_references) ps outs /\ out = concat outs).
Proof.
  intros file b ps. induction ps as [|p ps IH]; intros out Hp; cbn [scan].
  - split; [intros [= <-]; exists []; split; [constructor|reflexivity]|]. intros (outs & H & ->). inversion H. reflexivity.
  - split.
    + intros H. destruct (scan_one file b p) as [x|] eqn:E; [|discriminate H]. cbn [bind] in H.
      destruct (scan file b ps) as [y|] eqn:E2; [|discriminate H]. injection H as <-.
      destruct (proj1 (IH y (fun x Hx => Hp x (or_intror Hx))) eq_refl) as (outs & Ho & ->). exists (x :: outs). split; [|reflexivity].
      constructor; [|exact Ho]. apply (scan_one_eq file b); [apply Hp; left; reflexivity|exact E].
    + intros (outs & H & ->). inversion H as [|p' x ps' outs' Hx Ho]; subst. apply (scan_one_eq file b) in Hx; [|apply Hp; left; reflexivity].
      rewrite Hx. cbn [bind]. rewrite (proj2 (IH (concat outs') (fun x Hx => Hp x (or_intror Hx)))); [reflexivity|]. eauto.
Qed.
(** An error is about a missing file. *)
Theorem C50_missing :
  forall (file : path -> option str) (ps : list xpath) (e : exc),
    (forall x, In x ps -> proper x) -> scan file true ps = Raise e ->
    e = FileNotFoundError /\
    exists x content r, In x ps /\ file (full x) = Some content /\ In r (html_references content) /\
      forall y, ~ refers (fun p => exists c, file p = Some c) (root_of x) (dir_of x) r y.
Proof.
  intros file ps e. induction ps as [|p ps IH]; intros Hp H; cbn [scan] in H; [discriminate H|].
  destruct (scan_one file true p) as [x|e'] eqn:E; cbn [bind] in H.
  - destruct (scan file true ps) as [y|e'] eqn:E2; [discriminate H|]. cbn [bind] in H. injection H as ->.
    destruct (IH (fun x Hx => Hp x (or_intror Hx)) eq_refl) as (-> & x' & c & r & Hx & Hr). split; [reflexivity|].
    exists x', c, r. split; [right; exact Hx|exact Hr].
  - injection H as ->. pose proof (Hp p (or_introl eq_refl)) as Hpp.
    assert (G : exists content, file (full p) = Some content /\ find_stubs file true (root_of p) (mkpath false (dir_of p)) (html_references content) = Raise e).
    { unfold scan_one, scan_function in E. destruct p as [p|r s|r t s]; [discriminate E| |]; cbn [proper] in Hpp.
      - destruct (mem _ html_extensions); [|discriminate E]. destruct (file (full (Source r s))) as [c|] eqn:Ef; [|discriminate E].
        cbn [place] in E. unfold path_parent in E. rewrite Hpp in E. exists c. split; [reflexivity|exact E].
      - destruct (mem _ html_extensions); [|discriminate E]. destruct (file (full (Target r t s))) as [c|] eqn:Ef; [|discriminate E].
        cbn [place] in E. unfold path_parent in E. rewrite Hpp in E. exists c. split; [reflexivity|].
        assert (Er : path_join r (of_str (strip_c 46%N t)) = root_of (Target r t s)).
        { cbn [root_of full]. unfold path_join at 2. cbn [absolute parts]. rewrite app_nil_r. destruct (path_join r _); reflexivity. }
        rewrite Er in E. exact E. }
    destruct G as (c & Hc & G). destruct (find_stubs_error file true _ _ _ _ G) as (-> & s & Hs & Hx). split; [reflexivity|].
    exists p, c, s. split; [left; reflexivity|]. split; [exact Hc|]. split; [exact Hs|exact Hx].
Qed.
(** Finding: with errors disabled, a missing file is an error, too. *)
Theorem C50_disabled_refuted :
  ~ (forall (file : path -> option str) (ps : list xpath), (forall x, In x ps -> proper x) -> exists out, scan file false ps = Ok out).
Proof.
  intros H. destruct (H (fun p => if eqb p (of_str (lit "/x/a.html")) then Some (lit "<img src='b.png'>") else None)
    [Source (of_str (lit "/x")) (of_str (lit "a.html"))]) as [out E].
  - intros x [<-|[]]. reflexivity.
  - vm_compute in E. discriminate E.
Qed.
(** Finding: references that are no files (data, sites without a protocol) are searched as files. *)
Theorem C50_data_refuted :
  ~ (forall (content r : str), In r (html_references content) -> startswith r (lit "data:") = false /\ startswith r (lit "//") = false).
Proof.
  intros H. destruct (H (lit "<img src='data:image/png;base64,AAAA'>") (lit "data:image/png;base64,AAAA")) as [E _].
  - vm_compute. left. reflexivity.
  - discriminate E.
Qed.
(** Finding: after an empty reference, another attribute is taken for the reference. *)
Theorem C50_empty_refuted :
  ~ (forall attrs : str, contains attrs (lit "href") = false -> ~ In 62%N attrs ->
      forall r, In r (html_references (lit "<link href='' " ++ attrs ++ lit ">")) -> r = []).
Proof.
  intros H. specialize (H (lit "rel='x'") eq_refl). assert (E : lit "rel=" = []); [|discriminate E].
  apply H; [cbn; intuition discriminate|]. vm_compute. left. reflexivity.
Qed.
(** Finding: a reference without quotes is missed. *)
Theorem C50_unquoted_refuted :
  ~ (forall (a r b : str), (forall c, In c r -> ascii_word c = true) -> r <> [] ->
      In r (html_references (a ++ lit "<img src=" ++ r ++ lit ">" ++ b))).
Proof. intros H. specialize (H [] (lit "a") []). apply H; [|discriminate]. intros c [<-|[]]. reflexivity. Qed.

Example C50_ex :
  let e1 := mkelement KLink (lit " rel='stylesheet' ") (lit "'") (lit "/media/css/a.css") 39%N [] in
  let e2 := mkelement KLink (lit " ") [34; 123; 123; 32; 34]%N (lit "/media/b.css") 34%N (lit " | rewrite_path }}'") in
  let e3 := mkelement KImage (lit " ") (lit "'") (lit "m.png") 39%N [] in
  let e4 := mkelement KLink (lit " ") (lit "'") (lit "https://x.org/c.css") 39%N [] in
  let l := [(lit "<html>", e1); ([], e3); (lit "<p>text</p>", e2); ([], e4)] in
  (forall x, In x l -> well_formed (snd x) /\ no_element (fst x)) /\
  html_references (html l (lit "</html>")) = [lit "/media/css/a.css"; lit "/media/b.css"; lit "m.png"] /\
  let file p := if eqb p (of_str (lit "/x/html/sub/a.html")) then Some (html l (lit "</html>"))
                else if mem p [of_str (lit "/x/html/media/css/a.css"); of_str (lit "/x/html/sub/media/b.css"); of_str (lit "/x/html/media/b.css");
                               of_str (lit "/x/html/sub/m.png")] then Some [] else None in
  let root := of_str (lit "/x/html") in
  scan file true [Target (of_str (lit "/x")) (lit "html") (of_str (lit "sub/a.html")); Source root (of_str (lit "b.css"))] =
    Ok [Source root (of_str (lit "media/css/a.css")); Source root (of_str (lit "sub/media/b.css")); Source root (of_str (lit "sub/m.png"))].
Proof.
  split.
  - assert (W : forall e, match before e with c :: _ => rx_space c | [] => false end = true ->
      rx_space (last (before e) 0%N) = true -> gap e <> [] -> forallb opening (gap e) = true ->
      match value e with c :: _ => negb (opening c) | [] => false end = true ->
      forallb (fun c => negb (quote c) && negb (N.eqb c 10)) (value e) = true -> quote (last_quote e) = true ->
      forallb (fun c => negb (N.eqb c 62) && negb (N.eqb c 60)) (before e ++ gap e ++ value e ++ after e) = true ->
      contains (before e) (attribute (kind_of e)) = false ->
      contains (gap e ++ value e ++ [last_quote e] ++ after e) (attribute (kind_of e)) = false -> well_formed e).
    { intros e H1 H2 H3 H4 H5 H6 H7 H8 H9 H10. unfold well_formed. split; [|split; [|split; [|split; [|split; [|split; [|split; [|split; [|split]]]]]]]].
      - destruct (before e) as [|c d]; [discriminate|]. exists c, d. auto.
      - assert (Hn : before e <> []) by (intros E; rewrite E in H1; discriminate). exists (removelast (before e)), (last (before e) 0%N).
        split; [apply app_removelast_last, Hn|exact H2].
      - exact H3.
      - intros c Hc. rewrite forallb_forall in H4. apply opening_iff, H4, Hc.
      - destruct (value e) as [|c d]; [discriminate|]. exists c, d. split; [reflexivity|]. intros Hc. apply opening_iff in Hc. rewrite Hc in H5. discriminate.
      - intros c Hc. rewrite forallb_forall in H6. specialize (H6 c Hc). apply andb_true_iff in H6 as [Ha Hb].
        apply negb_true_iff in Ha, Hb. split; [intros Hq; apply quote_iff in Hq; congruence|apply N.eqb_neq, Hb].
      - apply quote_iff, H7.
      - intros c Hc. rewrite forallb_forall in H8. specialize (H8 c Hc). apply andb_true_iff in H8 as [Ha Hb].
        apply negb_true_iff in Ha, Hb. split; apply N.eqb_neq; assumption.
      - exact H9.
      - exact H10. }
    intros x [<-|[<-|[<-|[<-|[]]]]]; (split; [apply W; try discriminate; vm_compute; reflexivity|split; vm_compute; reflexivity]).
  - split; vm_compute; reflexivity.
Qed.

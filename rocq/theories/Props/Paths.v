(** Properties C34, C38, C39 and C40: names of files, output paths, links and the
    search for files *)
From Coq Require Import List Bool Arith NArith Lia.
From Verif.Base Require Import Str StrFacts Dict Result PurePath PyText.
From Verif.Model Require Import Paths.
From Verif.Spec Require Import Paths.
From Verif.Proof Require Import Paths.
Import ListNotations.

(** * C38 *)

(** Renaming with a new extension, with or without its dot: the directory stays,
    the stem is the new name, or the stem of before, with the appended text, and
    the extension is the asked one. *)
Theorem C38_extension : forall p f a e, wf_path p -> parts p <> nil -> no_slash f -> no_slash a ->
  (is_ext e \/ is_ext (46%N :: e)) -> f <> Some nil ->
  let q := rename p f a (Some e) in
  path_parent q = path_parent p /\
  path_stem q = (match f with Some f => f | None => path_stem p end) ++ match a with Some a => a | None => nil end /\
  path_suffix q = (if startswith e (lit ".") then e else 46%N :: e) /\ wf_path q.
Proof.
  intros p f a e W Np Hf Ha He Nf q.
  assert (X : exists x, (if startswith e (lit ".") then e else 46%N :: e) = 46%N :: x /\ x <> nil /\ ~ In 46%N x /\ ~ In 47%N x).
  { destruct (startswith e (lit ".")) eqn:S.
    - apply startswith_iff in S. destruct S as (x & ->). destruct He as [(y & E & Y)|(y & E & _ & D & _)].
      + exists y. change (lit "." ++ x) with (46%N :: x) in *. now rewrite E.
      + injection E as <-. exfalso. apply D. now left.
    - exists e. split; auto. destruct He as [(y & -> & _)|(y & E & Y)].
      + exfalso. assert (X : startswith (46%N :: y) (lit ".") = true) by (apply startswith_iff; exists y; reflexivity). congruence.
      + injection E as <-. exact Y. }
  destruct X as (x & Ex & Hx & Hd & Hs).
  set (b := match f with Some f => f | None => path_stem p end).
  assert (Hb : b <> nil). { unfold b. destruct f as [f|]; [congruence|now apply path_stem_nonnil]. }
  set (ap := match a with Some a => a | None => nil end).
  assert (En : new_name p f a (Some e) = (b ++ ap) ++ 46%N :: x).
  { unfold new_name. cbv zeta. change (lit "." ++ e) with (46%N :: e). rewrite Ex, <- app_assoc. reflexivity. }
  assert (Hbs : ~ In 47%N ((b ++ ap) ++ 46%N :: x)).
  { intros I. apply in_app_or in I as [I|[I|I]]; [|discriminate|auto]. apply in_app_or in I as [I|I].
    - unfold b in I. destruct f as [f|]; [exact (Hf _ eq_refl I)|exact (stem_no_slash _ W I)].
    - unfold ap in I. destruct a as [a|]; [exact (Ha _ eq_refl I)|contradiction]. }
  assert (Hn : (b ++ ap) ++ 46%N :: x <> nil /\ (b ++ ap) ++ 46%N :: x <> lit ".").
  { split; [intros C; now apply app_eq_nil in C as [_ C]|]. rewrite <- app_assoc. now apply long_name. }
  assert (Eq : q = mkpath (absolute p) (removelast (parts p) ++ [(b ++ ap) ++ 46%N :: x])).
  { unfold q. rewrite rename_new, En, of_str_name; auto; apply Hn. }
  assert (Es : split_name ((b ++ ap) ++ 46%N :: x) = (b ++ ap, 46%N :: x)).
  { apply split_name_ext; auto. intros C. now apply app_eq_nil in C as [C _]. }
  rewrite Eq, Ex. unfold path_parent, path_stem, path_suffix, path_name. cbn [parts absolute]. rewrite removelast_last, last_last, Es.
  split; [reflexivity|]. split; [reflexivity|]. split; [reflexivity|].
  intros y Hy. cbn [parts] in Hy. apply in_app_or in Hy as [Hy|[<-|[]]]; [|destruct Hn; auto].
  apply W. rewrite (app_removelast_last nil Np). apply in_or_app. now left.
Qed.

(** Without a new extension, that of the path is kept if it has one. *)
Theorem C38_keeps : forall p f a, wf_path p -> path_suffix p <> nil -> no_slash f -> no_slash a -> f <> Some nil ->
  let q := rename p f a None in
  path_parent q = path_parent p /\
  path_stem q = (match f with Some f => f | None => path_stem p end) ++ match a with Some a => a | None => nil end /\
  path_suffix q = path_suffix p /\ wf_path q.
Proof.
  intros p f a W S Hf Ha Nf q. destruct (split_name_cases (path_name p)) as [E|[(x & E & Hx & Hd) Es]]; [now contradict S|].
  assert (Np : parts p <> nil). { intros C. apply S. unfold path_suffix, path_name. now rewrite C. }
  assert (X : is_ext (path_suffix p)).
  { exists x. unfold path_suffix. split; auto. split; auto. split; auto. intros I. apply (suffix_no_slash p W). unfold path_suffix. rewrite E. now right. }
  assert (Q : q = rename p f a (Some (path_suffix p))) by reflexivity. rewrite Q.
  destruct (C38_extension p f a (path_suffix p) W Np Hf Ha (or_introl X) Nf) as (H1 & H2 & H3 & H4).
  split; [exact H1|]. split; [exact H2|]. split; [|exact H4]. rewrite H3.
  assert (Y : startswith (path_suffix p) (lit ".") = true). { apply startswith_iff. exists x. unfold path_suffix. now rewrite E. }
  now rewrite Y.
Qed.

(** When nothing is asked, a path with an extension stays as it is. *)
Theorem C38_same : forall p, wf_path p -> path_suffix p <> nil -> rename p None None None = p.
Proof.
  intros p W S.
  assert (Np : parts p <> nil). { intros C. apply S. unfold path_suffix, path_name. now rewrite C. }
  assert (Hn : no_slash None) by (intros y E; discriminate).
  rewrite rename_path; auto; [|apply new_name_dot; now apply path_stem_nonnil].
  destruct p as [ab ps]. cbn [absolute parts] in *. f_equal. transitivity (removelast ps ++ [last ps nil]); [|symmetry; now apply app_removelast_last]. f_equal. f_equal.
  assert (Y : startswith (path_suffix (mkpath ab ps)) (lit ".") = true).
  { destruct (split_name_cases (path_name (mkpath ab ps))) as [E|[(x & E & Hx & Hd) Es]]; [now contradict S|].
    apply startswith_iff. exists x. unfold path_suffix. now rewrite E. }
  unfold new_name. cbv beta iota zeta. rewrite Y. cbn [app]. apply (split_name_app (last ps nil)).
Qed.

(** Finding: a name without an extension does not stay as it is: a dot is added
    to it. *)
Theorem C38_dot_refuted : ~ (forall p, wf_path p -> parts p <> nil -> rename p None None None = p).
Proof.
  intros H. specialize (H (mkpath false [lit "src"; lit "README"])).
  assert (W : wf_path (mkpath false [lit "src"; lit "README"])).
  { change (mkpath false [lit "src"; lit "README"]) with (of_str (lit "src/README")). apply of_str_wf. }
  specialize (H W ltac:(discriminate)). vm_compute in H. discriminate.
Qed.

Example C38_ex : let p := of_str (lit "src/figs/a.b.png") in
  wf_path p /\ parts p <> nil /\ path_suffix p <> nil /\ is_ext (lit ".svg") /\ is_ext (46%N :: lit "svg") /\
  path_str (rename p None (Some (lit "_1")) (Some (lit "svg"))) = lit "src/figs/a.b_1.svg" /\
  path_str (rename p (Some (lit "c")) None None) = lit "src/figs/c.png".
Proof.
  cbv zeta. split; [apply of_str_wf|]. split; [vm_compute; discriminate|]. split; [vm_compute; discriminate|].
  assert (X : is_ext (lit ".svg")).
  { exists (lit "svg"). split; [reflexivity|]. split; [discriminate|]. split; vm_compute; intuition discriminate. }
  split; [exact X|]. split; [exact X|]. split; reflexivity.
Qed.

(** * C34 *)

(** Part of the property: two inputs at different places of their directories get
    different output paths, when the outputs are asked with the same options, and
    either the extension is kept or the inputs have the same extension, and the
    directory for media is not used or both or none of the inputs are in it. *)
Theorem C34_distinct_partial : forall cache troot media x y rx ry target append ext use_cache use_media a b,
  wf_path (sub_of x) -> wf_path (sub_of y) -> absolute (sub_of x) = false -> absolute (sub_of y) = false ->
  parts (sub_of x) <> nil -> parts (sub_of y) <> nil ->
  no_slash append -> no_slash ext ->
  (ext = None \/ path_suffix (sub_of x) = path_suffix (sub_of y)) ->
  (use_media = false \/ forall m, media = Some m -> startswith (path_str (sub_of x)) m = startswith (path_str (sub_of y)) m) ->
  (target <> None \/ match x, y with Target _ t _, Target _ u _ => t = u | Target _ _ _, _ => False | _, Target _ _ _ => False | _, _ => True end) ->
  sub_of x <> sub_of y ->
  generate_outfilepath cache troot media (x :: rx) target append ext use_cache use_media = Ok (Some a) ->
  generate_outfilepath cache troot media (y :: ry) target append ext use_cache use_media = Ok (Some b) ->
  full a <> full b.
Proof.
  intros cache troot media x y rx ry target append ext use_cache use_media a b Wx Wy Ax Ay Px Py Ha He Hext Hm Ht D Ga Gb Eab.
  unfold generate_outfilepath in Ga, Gb. fold (sub_of x) in Ga. fold (sub_of y) in Gb. rewrite Ax in Ga. rewrite Ay in Gb.
  assert (Et : (match target with Some t => strip_c 46%N t | None => match x with Target _ t _ => t | _ => nil end end) =
    match target with Some t => strip_c 46%N t | None => match y with Target _ t _ => t | _ => nil end end).
  { destruct target; auto. destruct Ht as [Ht|Ht]; [congruence|]. destruct x, y; auto; contradiction. }
  rewrite <- Et in Gb. clear Et.
  set (t := match target with Some t => strip_c 46%N t | None => match x with Target _ t _ => t | _ => nil end end) in *.
  set (root := if use_cache then cache else troot) in *.
  set (pre := match (if use_media then media else None) with
              | Some (c :: m) => if startswith (path_str (sub_of x)) (c :: m) then mkpath false nil else of_str (c :: m)
              | _ => mkpath false nil end).
  assert (J : forall z, absolute z = false -> path_join (mkpath false nil) z = z) by (intros [ab ps] E; cbn in E; subst; reflexivity).
  assert (Wpre : wf_path pre).
  { unfold pre. destruct (if use_media then media else None) as [[|c m]|]; try (intros z []). destruct (startswith _ _); [intros z []|apply of_str_wf]. }
  assert (Ma : (match (if use_media then media else None) with
                | Some (c :: m) => if startswith (path_str (sub_of x)) (c :: m) then rename (sub_of x) None append ext else rename (path_join (of_str (c :: m)) (sub_of x)) None append ext
                | _ => rename (sub_of x) None append ext end) = rename (path_join pre (sub_of x)) None append ext).
  { unfold pre. destruct (if use_media then media else None) as [[|c m]|]; rewrite ?J by auto; auto. destruct (startswith _ _); rewrite ?J; auto. }
  assert (Mb : (match (if use_media then media else None) with
                | Some (c :: m) => if startswith (path_str (sub_of y)) (c :: m) then rename (sub_of y) None append ext else rename (path_join (of_str (c :: m)) (sub_of y)) None append ext
                | _ => rename (sub_of y) None append ext end) = rename (path_join pre (sub_of y)) None append ext).
  { unfold pre. destruct use_media; [destruct Hm as [Hm|Hm]; [discriminate|]|]; [|now rewrite J].
    destruct media as [[|c m]|]; rewrite ?J by auto; auto. rewrite <- (Hm _ eq_refl). destruct (startswith _ _); rewrite ?J; auto. }
  rewrite Ma in Ga. rewrite Mb in Gb. clear Ma Mb Hm J.
  assert (Hn : no_slash None) by (intros z E; discriminate).
  assert (K : forall z, wf_path z -> absolute z = false -> parts z <> nil ->
    wf_path (path_join pre z) /\ parts (path_join pre z) <> nil /\ path_suffix (path_join pre z) = path_suffix z).
  { intros z W A P. unfold path_join. rewrite A. split; [|split].
    - intros w Hw. apply in_app_or in Hw. destruct Hw; auto.
    - cbn [parts]. intros C. apply app_eq_nil in C. tauto.
    - unfold path_suffix, path_name. cbn [parts]. f_equal. f_equal. rewrite (app_removelast_last nil P) at 1. rewrite app_assoc, last_last. reflexivity. }
  destruct (K _ Wx Ax Px) as (Wx' & Px' & Sx). destruct (K _ Wy Ay Py) as (Wy' & Py' & Sy).
  assert (R : path_join pre (sub_of x) = path_join pre (sub_of y) -> False).
  { intros E. apply D. unfold path_join in E. rewrite Ax, Ay in E. injection E as E. apply app_inv_head in E.
    destruct (sub_of x), (sub_of y). cbn in *. congruence. }
  unfold target_path in Ga, Gb.
  destruct (absolute (rename (path_join pre (sub_of x)) None append ext)) eqn:Ea; [discriminate|].
  destruct (absolute (rename (path_join pre (sub_of y)) None append ext)) eqn:Eb; [discriminate|]. cbn [bind] in Ga, Gb.
  assert (a = Target root (strip_c 46%N t) (rename (path_join pre (sub_of x)) None append ext)) as -> by congruence.
  assert (b = Target root (strip_c 46%N t) (rename (path_join pre (sub_of y)) None append ext)) as -> by congruence.
  cbn [full] in Eab. set (d := path_join root _) in Eab.
  assert (E : parts (rename (path_join pre (sub_of x)) None append ext) = parts (rename (path_join pre (sub_of y)) None append ext)).
  { unfold path_join at 1 3 in Eab. rewrite Ea, Eb in Eab. injection Eab as E. now apply app_inv_head in E. }
  apply R. apply (rename_inj _ _ append ext); auto; [destruct Hext as [->|Hext]; [now left|right; congruence]|].
  destruct (rename (path_join pre (sub_of x)) None append ext) as [a1 p1], (rename (path_join pre (sub_of y)) None append ext) as [a2 p2]. cbn in *. congruence.
Qed.

(** Findings.  Two images of one directory that differ in their extension only,
    converted to the same format, get the same output path; *)
Definition img (s : str) : xpath := Source (of_str (lit "/p/src")) (of_str s).
Definition out_of (x : xpath) (ext : str) (m : bool) := generate_outfilepath (of_str (lit "/p/.cache")) (of_str (lit "/p")) (Some (lit "media")) [x] (Some (lit ".tex")) None (Some ext) false m.
Theorem C34_extension_refuted : ~ (forall x y e a b, sub_of x <> sub_of y ->
  out_of x e false = Ok (Some a) -> out_of y e false = Ok (Some b) -> full a <> full b).
Proof. intros H. refine (H (img (lit "a.svg")) (img (lit "a.png")) (lit ".pdf") _ _ _ eq_refl eq_refl _); [vm_compute; discriminate|vm_compute; reflexivity]. Qed.
(** so do a file in the directory for media and one beside it, even with the same
    extension; *)
Theorem C34_media_refuted : ~ (forall x y e a b, sub_of x <> sub_of y -> path_suffix (sub_of x) = path_suffix (sub_of y) ->
  out_of x e true = Ok (Some a) -> out_of y e true = Ok (Some b) -> full a <> full b).
Proof.
  intros H. refine (H (img (lit "a.svg")) (img (lit "media/a.svg")) (lit ".svg") _ _ _ _ eq_refl eq_refl _); [vm_compute; discriminate|vm_compute; reflexivity|vm_compute; reflexivity].
Qed.
(** and so do absolute paths of different directories. *)
Theorem C34_absolute_refuted : ~ (forall x y e a b, sub_of x <> sub_of y -> path_suffix (sub_of x) = path_suffix (sub_of y) ->
  out_of x e false = Ok (Some a) -> out_of y e false = Ok (Some b) -> full a <> full b).
Proof.
  intros H. refine (H (Plain (of_str (lit "/x/a.svg"))) (Plain (of_str (lit "/y/a.svg"))) (lit ".svg") _ _ _ _ eq_refl eq_refl _); [vm_compute; discriminate|vm_compute; reflexivity|vm_compute; reflexivity].
Qed.

(** The output is in the directory of the target, under the root that was asked. *)
Theorem C34_place : forall cache troot media x r target append ext use_cache use_media a,
  generate_outfilepath cache troot media (x :: r) (Some target) append ext use_cache use_media = Ok (Some a) ->
  exists sub, full a = path_join (path_join (if use_cache then cache else troot) (of_str (strip_c 46%N target))) sub /\ absolute sub = false /\ sub_of a = sub.
Proof.
  intros cache troot media x r target append ext use_cache use_media a H. unfold generate_outfilepath in H.
  set (sub := match (if use_media then media else None) with Some (c :: m) => _ | _ => _ end) in H. clearbody sub.
  unfold target_path in H. destruct (absolute sub) eqn:A; [discriminate|]. cbn [bind] in H.
  assert (I : strip_c 46%N (strip_c 46%N target) = strip_c 46%N target) by (unfold strip_c; apply strip_p_idem).
  rewrite I in H. assert (a = Target (if use_cache then cache else troot) (strip_c 46%N target) sub) as -> by congruence.
  exists sub. cbn [full sub_of]. rewrite I. auto.
Qed.

Example C34_ex : let x := img (lit "ch1/a.svg") in let y := img (lit "ch2/a.svg") in
  wf_path (sub_of x) /\ wf_path (sub_of y) /\ absolute (sub_of x) = false /\ absolute (sub_of y) = false /\
  parts (sub_of x) <> nil /\ parts (sub_of y) <> nil /\ path_suffix (sub_of x) = path_suffix (sub_of y) /\ sub_of x <> sub_of y /\
  exists a b, out_of x (lit ".pdf") false = Ok (Some a) /\ out_of y (lit ".pdf") false = Ok (Some b) /\
    path_str (full a) = lit "/p/tex/ch1/a.pdf" /\ path_str (full b) = lit "/p/tex/ch2/a.pdf".
Proof.
  cbv zeta. split; [apply of_str_wf|]. split; [apply of_str_wf|]. split; [reflexivity|]. split; [reflexivity|].
  split; [vm_compute; discriminate|]. split; [vm_compute; discriminate|]. split; [vm_compute; reflexivity|]. split; [vm_compute; discriminate|].
  eexists _, _. split; [reflexivity|]. split; [reflexivity|]. split; vm_compute; reflexivity.
Qed.

(** * C39 *)

Lemma abs_parts_names cwd p : wf_path p -> (forall x, In x cwd -> x <> nil /\ x <> lit "." /\ ~ In 47%N x) ->
  forall x, In x (abs_parts cwd p) -> (x <> nil /\ x <> lit "." /\ ~ In 47%N x) /\ x <> lit "..".
Proof.
  intros W C x Hx. unfold abs_parts in Hx. apply norm_names in Hx; [|intros y []]. destruct Hx as [H1 [[]|H2]]. split; auto.
  destruct (absolute p); auto. apply in_app_or in H2 as [H2|H2]; auto.
Qed.

(** The relative link from a document to a file, followed from the directory of
    the document, leads to the file. *)
Theorem C39_relative : forall cwd x d,
  (forall n, In n cwd -> n <> nil /\ n <> lit "." /\ ~ In 47%N n) -> ~ In (lit "..") cwd ->
  wf_path (full x) -> wf_path d ->
  follow (location cwd (path_parent d)) (relative_url cwd x d) = location cwd (full x).
Proof.
  intros cwd x d C C2 Wx Wd.
  assert (Wp : wf_path (path_parent d)).
  { intros y Hy. apply Wd. cbn [path_parent parts] in Hy. destruct (parts d) as [|z l]; [contradiction|].
    rewrite (app_removelast_last nil (l := z :: l)) by discriminate. apply in_or_app. now left. }
  rewrite !location_abs by auto. unfold relative_url, relpath.
  pose proof (abs_parts_names cwd _ Wp C) as Ns. pose proof (abs_parts_names cwd _ Wx C) as Nl.
  set (s := abs_parts cwd (path_parent d)) in *. set (l := abs_parts cwd (full x)) in *. clearbody s l.
  set (r := repeat (lit "..") (length s - common s l) ++ skipn (common s l) l).
  assert (Rr : forall y, In y r -> y <> nil /\ y <> lit "." /\ ~ In 47%N y).
  { intros y Hy. unfold r in Hy. apply in_app_or in Hy as [Hy|Hy].
    - apply repeat_spec in Hy. subst y. split; [discriminate|]. split; [discriminate|]. vm_compute. intuition discriminate.
    - apply Nl. rewrite <- (firstn_skipn (common s l) l). apply in_or_app. now right. }
  assert (F : fold_left norm_step r s = l).
  { unfold r. rewrite fold_left_app, fold_up by lia.
    pose proof (common_le s l). replace (length s - (length s - common s l)) with (common s l) by lia.
    rewrite common_firstn, norm_cwd, firstn_skipn; auto.
    intros I. apply (proj2 (Nl _ ltac:(rewrite <- (firstn_skipn (common s l) l); apply in_or_app; right; exact I))). reflexivity. }
  destruct r as [|y r'] eqn:Er.
  - cbn [fold_left] in F. subst l. reflexivity.
  - rewrite <- Er in *. unfold clean_url.
    assert (R2 : forall y, In y r -> y <> nil /\ ~ In 47%N y) by (intros z Hz; destruct (Rr z Hz) as (? & ? & ?); auto).
    rewrite join_last by auto. rewrite dbl_slash_id by (apply join_no_dbl; auto). rewrite follow_join by auto. exact F.
Qed.

(** Finding: '?' and '#' in the names of files are not escaped, so that a browser
    does not find the file. *)
Theorem C39_escape_refuted : ~ (forall cwd x d, (forall n, In n cwd -> n <> nil /\ n <> lit "." /\ ~ In 47%N n) -> ~ In (lit "..") cwd ->
  wf_path (full x) -> wf_path d -> follow (location cwd (path_parent d)) (url_path (relative_url cwd x d)) = location cwd (full x)).
Proof.
  intros H. specialize (H [lit "p"] (Target (of_str (lit "/p")) (lit "html") (of_str (lit "c#1.png"))) (of_str (lit "/p/html/a.html"))).
  assert (C : follow (location [lit "p"] (path_parent (of_str (lit "/p/html/a.html")))) (url_path (relative_url [lit "p"] (Target (of_str (lit "/p")) (lit "html") (of_str (lit "c#1.png"))) (of_str (lit "/p/html/a.html"))))
    = location [lit "p"] (full (Target (of_str (lit "/p")) (lit "html") (of_str (lit "c#1.png"))))).
  { apply H.
    - intros n [<-|[]]. split; [discriminate|]. split; [discriminate|]. vm_compute. intuition discriminate.
    - vm_compute. intuition discriminate.
    - change (full (Target (of_str (lit "/p")) (lit "html") (of_str (lit "c#1.png")))) with (of_str (lit "/p/html/c#1.png")). apply of_str_wf.
    - apply of_str_wf. }
  vm_compute in C. discriminate.
Qed.

(** Without a document the link is the path of the file under its root of
    targets, if the path in the target does not begin or end with a dot. *)
Theorem C39_absolute_partial : forall root t sub, wf_path sub -> absolute sub = false -> parts sub <> nil ->
  t <> nil -> ~ In 46%N t -> ~ In 47%N t ->
  strip_c 46%N (path_str sub) = path_str sub ->
  absolute_url (Target root t sub) None = lit "/" ++ t ++ lit "/" ++ path_str sub.
Proof.
  intros root t sub W A P Ht Hd Hs S. unfold absolute_url.
  assert (Nt : t <> lit ".") by (intros ->; apply Hd; now left).
  rewrite (of_str_name t Ht Nt Hs). unfold path_str at 1. cbn [absolute parts join].
  assert (St : strip_c 46%N t = t).
  { unfold strip_c. apply strip_p_id. split.
    - intros c r ->. apply N.eqb_neq. intros E. apply Hd. left. now symmetry.
    - intros c r ->. apply N.eqb_neq. intros E. apply Hd. apply in_or_app. right. left. now symmetry. }
  rewrite St, S. unfold path_str. rewrite A. destruct (parts sub) as [|y l] eqn:Ep; [congruence|]. rewrite <- Ep in *.
  assert (E : lit "/" ++ t ++ lit "/" ++ join (lit "/") (parts sub) = lit "/" ++ join (lit "/") (t :: parts sub)).
  { rewrite join_cons by (rewrite Ep; discriminate). reflexivity. }
  rewrite E. unfold clean_url.
  assert (R2 : forall z, In z (t :: parts sub) -> z <> nil /\ ~ In 47%N z) by (intros z [<-|Hz]; [auto|]; destruct (W z Hz) as (? & ? & ?); auto).
  assert (J : lit "/" ++ join (lit "/") (t :: parts sub) <> nil) by discriminate.
  pose proof (join_last _ R2) as L. 
  assert (L2 : rstrip_p (N.eqb 47) (lit "/" ++ join (lit "/") (t :: parts sub)) = lit "/" ++ join (lit "/") (t :: parts sub)).
  { destruct (rstrip_p_decomp (N.eqb 47) (join (lit "/") (t :: parts sub))) as (q & _ & _ & X). rewrite L in X.
    rewrite <- (app_nil_r (lit "/" ++ join (lit "/") (t :: parts sub))) at 1. apply rstrip_p_unique; auto.
    intros c r Ec. rewrite join_cons in Ec by (rewrite Ep; discriminate). rewrite join_cons in X by (rewrite Ep; discriminate).
    destruct r as [|z r]; [destruct t; [congruence|discriminate]|]. injection Ec as _ Ec. now apply (X c r). }
  rewrite L2. apply dbl_slash_id. intros a b C. destruct a as [|c a].
  - destruct t as [|c t]; [congruence|]. rewrite join_cons in C by (rewrite Ep; discriminate). injection C as C. apply Hs. left. exact C.
  - injection C as _ C. now apply (join_no_dbl _ R2 a b).
Qed.
(** Finding: a dot at the beginning of the path is lost. *)
Theorem C39_dot_refuted : ~ (forall root t sub, wf_path sub -> absolute sub = false -> parts sub <> nil -> t <> nil -> ~ In 46%N t -> ~ In 47%N t ->
  absolute_url (Target root t sub) None = lit "/" ++ t ++ lit "/" ++ path_str sub).
Proof.
  intros H. specialize (H (of_str (lit "/p")) (lit "html") (of_str (lit ".well-known/a.html")) (of_str_wf _) eq_refl).
  assert (C : absolute_url (Target (of_str (lit "/p")) (lit "html") (of_str (lit ".well-known/a.html"))) None = lit "/" ++ lit "html" ++ lit "/" ++ path_str (of_str (lit ".well-known/a.html"))).
  { apply H; [vm_compute; discriminate|discriminate|vm_compute; intuition discriminate|vm_compute; intuition discriminate]. }
  vm_compute in C. discriminate.
Qed.

Example C39_ex : let x := Target (of_str (lit "/p")) (lit "html") (of_str (lit "media/c.png")) in
  relative_url [lit "w"] x (of_str (lit "/p/html/ch1/a.html")) = lit "../media/c.png" /\
  location [lit "w"] (full x) = [lit "p"; lit "html"; lit "media"; lit "c.png"] /\ wf_path (full x) /\
  absolute_url x None = lit "/html/media/c.png".
Proof.
  cbv zeta. split; [vm_compute; reflexivity|]. split; [vm_compute; reflexivity|]. split; [|vm_compute; reflexivity].
  change (full (Target (of_str (lit "/p")) (lit "html") (of_str (lit "media/c.png")))) with (of_str (lit "/p/html/media/c.png")). apply of_str_wf.
Qed.

(** * C40 *)
Section Find.
Variable is_file : path -> bool.

Lemma candidate_full p q : absolute q = false -> made p -> exists x, candidate p q = Ok x /\ full x = path_join (full p) q.
Proof.
  intros A M. destruct p as [r|r s|r t s]; cbn [candidate use_subpath made sub_of] in *.
  - eexists. split; reflexivity.
  - unfold source_path. unfold path_join at 1. rewrite A. cbn [absolute]. rewrite M. eexists. split; [reflexivity|].
    cbn [full]. unfold path_join. rewrite A. cbn [absolute]. rewrite M. cbn [absolute parts]. now rewrite app_assoc.
  - unfold target_path. unfold path_join at 1. rewrite A. cbn [absolute]. rewrite M. eexists. split; [reflexivity|].
    cbn [full]. assert (I : strip_c 46%N (strip_c 46%N t) = strip_c 46%N t) by (unfold strip_c; apply strip_p_idem). rewrite I.
    set (d := path_join r _). unfold path_join. rewrite A. cbn [absolute]. rewrite M. cbn [absolute parts]. now rewrite app_assoc.
Qed.
Lemma search_spec q ps : absolute q = false -> (forall p, In p ps -> made p) ->
  match search is_file ps q with
  | Ok x => first_of is_file (map (fun p => path_join (full p) q) ps) (full x)
  | Raise e => e = FileNotFoundError /\ forall y, In y (map (fun p => path_join (full p) q) ps) -> is_file y = false
  end.
Proof.
  intros A. induction ps as [|p ps IH]; intros M; cbn [search map]; [split; [reflexivity|intros y []]|].
  destruct (candidate_full p q A (M _ (or_introl eq_refl))) as (x & -> & E). cbn [bind]. rewrite E.
  destruct (is_file (path_join (full p) q)) eqn:F.
  - rewrite E. exists nil, (map (fun p => path_join (full p) q) ps). split; [reflexivity|]. split; auto. intros y [].
  - assert (M' : forall p, In p ps -> made p) by (intros; apply M; now right). specialize (IH M').
    destruct (search is_file ps q) as [y|e].
    + destruct IH as (a & b & E1 & E2 & E3). exists (path_join (full p) q :: a), b. rewrite E1. split; [reflexivity|]. split; auto.
      intros z [<-|Hz]; auto.
    + destruct IH as [-> IH]. split; auto. intros z [<-|Hz]; auto.
Qed.

(** A search gives the first place that has the file, and raises
    FileNotFoundError exactly if no place has it. *)
Theorem C40_first : forall q ps, (forall p, In p ps -> made p) ->
  match find_file is_file q ps with
  | Ok x => first_of is_file (places q ps) (full x)
  | Raise e => e = FileNotFoundError /\ forall y, In y (places q ps) -> is_file y = false
  end.
Proof.
  intros q ps M. unfold find_file, places. destruct (is_file q) eqn:F.
  - exists nil. eexists. split; [reflexivity|]. split; [exact F|]. intros y [].
  - destruct (absolute q) eqn:A; [split; [reflexivity|intros y [<-|[]]; exact F]|].
    assert (E : path_join (of_str (lit ".")) q = q).
    { unfold path_join. rewrite A. destruct q as [a p]. cbn in *. now rewrite A. }
    cbn [search candidate bind full]. rewrite E, F.
    pose proof (search_spec q ps A M) as S. destruct (search is_file ps q) as [x|e].
    + destruct S as (a & b & E1 & E2 & E3). exists (q :: a), b. rewrite E1. split; [reflexivity|]. split; auto. intros y [<-|Hy]; auto.
    + destruct S as [-> S]. split; auto. intros y [<-|Hy]; auto.
Qed.

(** A path found under a source path is a source path with the same root, and
    likewise for target paths; its subpath is that of the path of the context
    followed by the searched path. *)
Theorem C40_kind : forall q ps x, find_file is_file q ps = Ok x ->
  x = Plain q \/ exists p, In p ps /\
    match p with
    | Plain r => x = Plain (path_join r q)
    | Source r s => x = Source r (path_join s q)
    | Target r t s => exists t', x = Target r t' (path_join s q) /\ t' = strip_c 46%N t
    end.
Proof.
  intros q ps x H. unfold find_file in H. destruct (is_file q); [left; congruence|]. destruct (absolute q) eqn:A; [discriminate|].
  cbn [search candidate bind full] in H.
  assert (E : path_join (of_str (lit ".")) q = q).
  { unfold path_join. rewrite A. destruct q as [a p]. cbn in *. now rewrite A. }
  rewrite E in H. destruct (is_file q); [left; congruence|]. right. clear E.
  induction ps as [|p ps IH]; cbn [search] in H; [discriminate|].
  destruct (candidate p q) as [y|] eqn:C; [|discriminate]. cbn [bind] in H. destruct (is_file (full y)).
  - exists p. split; [now left|]. assert (y = x) as -> by congruence. destruct p as [r|r s|r t s]; cbn [candidate use_subpath] in C.
    + congruence.
    + unfold source_path in C. destruct (absolute (path_join s q)); congruence.
    + unfold target_path in C. destruct (absolute (path_join s q)); [discriminate|]. eexists. split; [|reflexivity]. congruence.
  - destruct (IH H) as (p' & H1 & H2). exists p'. split; auto. now right.
Qed.

(** Looking for the lines of a text: the files of the lines that have one, in
    order. *)
Theorem C40_files : forall s ps, found_lines (fun l => find_text is_file l ps) (splitlines (strip s)) (find_files is_file s ps).
Proof.
  intros s ps. unfold find_files. induction (splitlines (strip s)) as [|l ls IH]; cbn [flat_map]; [constructor|].
  destruct l as [|c l]; [apply (found_no _ _ _ OtherError); auto|].
  destruct (find_text is_file (c :: l) ps) as [x|e] eqn:E; [apply found_yes; auto; discriminate|apply (found_no _ _ _ e); auto].
Qed.
(** A text that is one line is looked for as the path it names. *)
Theorem C40_text : forall s ps, strip s <> nil -> splitlines (strip s) = [strip s] -> find_text is_file s ps = find_file is_file (of_str (strip s)) ps.
Proof. intros s ps _ E. unfold find_text, first_line. now rewrite E. Qed.

(** A stream of a text is that of the contents of the first file it names, and of
    the text itself if it names none. *)
Theorem C40_stream : forall read s ps,
  match load_text is_file read s ps, find_files is_file s ps with
  | t, x :: _ => t = read (full x)
  | t, nil => t = s
  end.
Proof. intros read s ps. unfold load_text. destruct (find_files is_file s ps); reflexivity. Qed.
End Find.

(** Finding: a file of the working directory hides that of the paths of the
    context. *)
Theorem C40_cwd_refuted : ~ (forall is_file q ps x, (forall p, In p ps -> made p) -> absolute q = false ->
  (exists p, In p ps /\ is_file (path_join (full p) q) = true) ->
  find_file is_file q ps = Ok x -> first_of is_file (map (fun p => path_join (full p) q) ps) (full x)).
Proof.
  intros H. set (q := of_str (lit "a.png")). set (p := Source (of_str (lit "/p/src")) (of_str (lit "."))).
  assert (C : first_of (fun _ => true) (map (fun p => path_join (full p) q) [p]) (full (Plain q))).
  { apply H; auto.
    - intros p' [<-|[]]. reflexivity.
    - exists p. split; [now left|reflexivity]. }
  destruct C as (a & b & E & _). destruct a as [|y [|z a]]; vm_compute in E; discriminate.
Qed.

Example C40_ex : let ps := [Plain (of_str (lit "/x")); Source (of_str (lit "/p/src")) (of_str (lit "figs"))] in
  let f := fun p => eqb p (of_str (lit "/p/src/figs/a.png")) in
  (forall p, In p ps -> made p) /\
  find_file f (of_str (lit "a.png")) ps = Ok (Source (of_str (lit "/p/src")) (of_str (lit "figs/a.png"))) /\
  find_file f (of_str (lit "b.png")) ps = Raise FileNotFoundError /\
  find_files f (lit "b.png
a.png") ps = [Source (of_str (lit "/p/src")) (of_str (lit "figs/a.png"))].
Proof.
  cbv zeta. split; [intros p [<-|[<-|[]]]; reflexivity|]. split; [vm_compute; reflexivity|]. split; vm_compute; reflexivity.
Qed.

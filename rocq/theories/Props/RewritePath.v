(** Property C81: paths in templates that are rewritten *)
From Coq Require Import List Bool Arith NArith Lia.
From Verif.Base Require Import Str StrFacts Dict Result PurePath PyText.
From Verif.Model Require Import Paths RewritePath.
From Verif.Spec Require Import Paths RewritePath.
From Verif.Proof Require Import Paths.
From Verif.Props Require Import Paths.
Import ListNotations.

(** * The text without its slashes *)
Lemma forallb_slash l : forallb (N.eqb 47) l = true <-> forall c, In c l -> c = 47%N.
Proof.
  rewrite forallb_forall. split; intros H c I.
  - symmetry. now apply N.eqb_eq, H.
  - apply N.eqb_eq. symmetry. now apply H.
Qed.
Lemma bare_strip stub s : bare stub s <-> strip_c 47%N stub = s.
Proof.
  unfold strip_c. split.
  - intros (a & b & E & S & H1 & H2). rewrite E. apply strip_p_unique.
    + apply forallb_slash. intros c I. apply S, in_or_app. now left.
    + apply forallb_slash. intros c I. apply S, in_or_app. now right.
    + split; intros c r F; apply N.eqb_neq; intros C; symmetry in C; revert C; [now apply (H1 c r)|now apply (H2 c r)].
  - intros E. destruct (strip_p_decomp (N.eqb 47) stub) as (a & b & F & Ha & Hb & [H1 H2]). rewrite E in *.
    exists a, b. split; [exact F|]. split; [|split].
    + apply forallb_slash. now rewrite forallb_app, Ha, Hb.
    + intros c r G C. specialize (H1 c r G). apply N.eqb_neq in H1. congruence.
    + intros c r G C. specialize (H2 c r G). apply N.eqb_neq in H2. congruence.
Qed.
Lemma bare_relative s stub : bare stub s -> absolute (of_str s) = false.
Proof.
  intros (a & b & _ & _ & H & _). unfold of_str. cbn [absolute]. destruct s as [|c r]; [reflexivity|].
  destruct (startswith (c :: r) (lit "/")) eqn:E; [|reflexivity]. apply startswith_iff in E as (t & E).
  exfalso. apply (H c r eq_refl). change (lit "/") with [47%N] in E. cbn [app] in E. congruence.
Qed.
Lemma join_nil q : absolute q = false -> path_join (of_str nil) q = q.
Proof. intros A. unfold path_join. rewrite A. destruct q as [a l]. cbn in *. now rewrite A. Qed.
Lemma join_dot q : absolute q = false -> path_join (of_str (lit ".")) q = q.
Proof. intros A. unfold path_join. rewrite A. destruct q as [a l]. cbn in *. now rewrite A. Qed.
Lemma strip_dots t : strip_c 46%N (strip_c 46%N t) = strip_c 46%N t.
Proof. unfold strip_c. apply strip_p_idem. Qed.

(** * What the filter gives *)
Section Rewrite.
Variable is_file : path -> bool.
Variable cwd : list str.
Variable relative : bool.
Variable doc : option path.
Lemma rewrite_is r t sub target stub s q : bare stub s -> strip s = s -> splitlines s = [s] -> q = of_str s ->
  rewrite_path is_file cwd relative doc (Target r t sub) target stub =
  if is_file q then Raise AttributeError
  else if is_file (stray q) then template_url cwd relative doc (Target (of_str (lit "None")) (lit "None") q) target
  else if is_file (file_in r t q) then template_url cwd relative doc (Target r (strip_c 46%N t) q) target
  else Ok s.
Proof.
  intros B S L Q. pose proof (bare_relative s stub B) as A. rewrite <- Q in A. apply bare_strip in B.
  unfold rewrite_path. rewrite B. cbv zeta.
  assert (P : rewrite_paths (Target r t sub) = Ok [bare_parent; Target r (strip_c 46%N t) (of_str nil)]) by reflexivity.
  rewrite P. cbn [bind]. unfold find_text, first_line. rewrite S, L, <- Q. unfold find_file, bare_parent.
  destruct (is_file q) eqn:F1; [reflexivity|]. rewrite A. cbn [search candidate]. rewrite join_dot, join_nil by exact A.
  cbn [bind full]. rewrite F1. cbn [use_subpath]. unfold target_path. rewrite A. cbn [bind full].
  change (path_join (path_join (of_str (lit "None")) (of_str (strip_c 46 (strip_c 46 (lit "None"))))) q) with (stray q).
  destruct (is_file (stray q)) eqn:F2; [reflexivity|]. rewrite !strip_dots.
  change (path_join (path_join r (of_str (strip_c 46 t))) q) with (file_in r t q).
  destruct (is_file (file_in r t q)); reflexivity.
Qed.
End Rewrite.

Lemma wf_join a b : wf_path a -> wf_path b -> wf_path (path_join a b).
Proof.
  intros A B x I. unfold path_join in I. destruct (absolute b); [now apply B|]. cbn [parts] in I.
  apply in_app_or in I as [I|I]; [now apply A|now apply B].
Qed.
Lemma wf_parent p : wf_path p -> wf_path (path_parent p).
Proof.
  intros W y Hy. apply W. cbn [path_parent parts] in Hy. destruct (parts p) as [|z l]; [contradiction|].
  rewrite (app_removelast_last nil (l := z :: l)) by discriminate. apply in_or_app. now left.
Qed.

(** Names of directories *)
Notation names cwd := ((forall n, In n cwd -> n <> nil /\ n <> lit "." /\ ~ In 47%N n) /\ ~ In (lit "..") cwd).

(** If the file is in the directory of the target, and in neither of the other two
    places, the link leads from the page to it. *)
Theorem C81_leads : forall is_file cwd root t sub target stub q d,
  one_path stub q -> is_file q = false -> is_file (stray q) = false -> is_file (file_in root t q) = true ->
  names cwd -> wf_path root -> wf_path sub -> wf_path d -> path_parent d = path_parent (file_in root t sub) ->
  exists u, rewrite_path is_file cwd true (Some d) (Target root t sub) target stub = Ok u /\
    follow (location cwd (path_parent (file_in root t sub))) u = location cwd (file_in root t q).
Proof.
  intros is_file cwd root t sub target stub q d (s & B & S & L & Q) F1 F2 F3 [C1 C2] Wr Ws Wd P.
  rewrite (rewrite_is is_file cwd true (Some d) root t sub target stub s q B S L Q), F1, F2, F3. cbn [template_url].
  eexists. split; [reflexivity|]. rewrite <- P.
  assert (E : full (Target root (strip_c 46%N t) q) = file_in root t q).
  { cbn [full]. rewrite strip_dots. reflexivity. }
  rewrite <- E. apply C39_relative; auto. rewrite E. unfold file_in, target_dir. apply wf_join; [|subst q; apply of_str_wf].
  apply wf_join; auto. apply of_str_wf.
Qed.

(** Without relative links it is the target and the path, after slashes. *)
Theorem C81_absolute : forall is_file cwd doc root t sub target stub q,
  one_path stub q -> is_file q = false -> is_file (stray q) = false -> is_file (file_in root t q) = true ->
  parts q <> nil -> t <> nil -> ~ In 46%N t -> ~ In 47%N t -> target = t \/ target = lit "." ++ t ->
  strip_c 46%N (path_str q) = path_str q ->
  rewrite_path is_file cwd false doc (Target root t sub) target stub = Ok (lit "/" ++ t ++ lit "/" ++ path_str q).
Proof.
  intros is_file cwd doc root t sub target stub q (s & B & S & L & Q) F1 F2 F3 Nq Nt D1 D2 T N.
  rewrite (rewrite_is is_file cwd false doc root t sub target stub s q B S L Q), F1, F2, F3. cbn [template_url].
  assert (St : stripped (N.eqb 46) t).
  { split; intros c r E; apply N.eqb_neq; intros C; apply D1; subst t; rewrite C; [now left|apply in_or_app; right; now left]. }
  assert (Et : strip_c 46%N t = t) by (unfold strip_c; now apply strip_p_id).
  assert (Eg : strip_c 46%N target = t).
  { destruct T as [->| ->]; [exact Et|]. unfold strip_c. change (lit ".") with [46%N].
    rewrite <- (app_nil_r t) at 1. now apply (strip_p_unique (N.eqb 46) [46%N] t nil). }
  rewrite Et. f_equal. rewrite <- (C39_absolute_partial root t q); auto.
  - unfold absolute_url. destruct target as [|c u].
    { exfalso. destruct T as [E|E]; [now apply Nt|discriminate E]. }
    rewrite Eg. rewrite (of_str_name t Nt); auto.
    + unfold path_str at 2. cbn [absolute parts join]. now rewrite Et.
    + intros ->. apply D1. now left.
  - subst q. apply of_str_wf.
  - rewrite Q. now apply (bare_relative s stub).
Qed.

(** If the file is in none of the places, the text is given without the slashes at its ends. *)
Theorem C81_unchanged : forall is_file cwd relative doc root t sub target stub q s,
  one_path stub q -> bare stub s -> is_file q = false -> is_file (stray q) = false -> is_file (file_in root t q) = false ->
  rewrite_path is_file cwd relative doc (Target root t sub) target stub = Ok s.
Proof.
  intros is_file cwd relative doc root t sub target stub q s (s' & B & S & L & Q) B' F1 F2 F3.
  rewrite (rewrite_is is_file cwd relative doc root t sub target stub s' q B S L Q), F1, F2, F3.
  apply bare_strip in B, B'. congruence.
Qed.

(** This text leads to the file beside the page. *)
Theorem C81_beside : forall is_file cwd relative doc root t sub target stub q,
  one_path stub q -> is_file q = false -> is_file (stray q) = false -> is_file (file_in root t q) = false ->
  names cwd -> wf_path root -> wf_path sub ->
  exists u, rewrite_path is_file cwd relative doc (Target root t sub) target stub = Ok u /\
    follow (location cwd (path_parent (file_in root t sub))) u = location cwd (path_join (path_parent (file_in root t sub)) q).
Proof.
  intros is_file cwd relative doc root t sub target stub q H F1 F2 F3 [C1 C2] Wr Ws.
  pose proof H as (s & B & S & L & Q). exists s. split; [now apply (C81_unchanged _ _ _ _ _ _ _ _ _ q)|].
  set (p := path_parent (file_in root t sub)).
  assert (Wp : wf_path p).
  { apply wf_parent. unfold file_in, target_dir. apply wf_join; auto. apply wf_join; auto. apply of_str_wf. }
  assert (Wq : wf_path q) by (subst q; apply of_str_wf).
  assert (A : absolute q = false) by (rewrite Q; now apply (bare_relative s stub)).
  rewrite !location_abs by (auto; now apply wf_join). unfold follow. rewrite fold_go_filter.
  unfold abs_parts, path_join. rewrite A. cbn [absolute parts].
  replace (filter real_part (split_c 47%N s)) with (parts q) by (rewrite Q; reflexivity).
  destruct (absolute p); [now rewrite <- fold_left_app|]. now rewrite app_assoc, <- fold_left_app.
Qed.

(** The filter raises an error exactly if the path is a file from the working
    directory. *)
Theorem C81_raises : forall is_file cwd relative doc root t sub target stub q,
  one_path stub q ->
  ((exists e, rewrite_path is_file cwd relative doc (Target root t sub) target stub = Raise e) <-> is_file q = true).
Proof.
  intros is_file cwd relative doc root t sub target stub q (s & B & S & L & Q).
  rewrite (rewrite_is is_file cwd relative doc root t sub target stub s q B S L Q). cbn [template_url].
  destruct (is_file q); [split; eauto|]. split; [|discriminate]. intros (e & E).
  destruct (is_file (stray q)); [discriminate|]. destruct (is_file (file_in root t q)); discriminate.
Qed.

(** * Findings *)
Definition files (l : list str) (p : path) : bool := mem p (map of_str l).
Lemma css_path : one_path (lit "/css/a.css") (of_str (lit "css/a.css")).
Proof.
  exists (lit "css/a.css"). split; [|vm_compute; auto]. apply bare_strip. vm_compute. reflexivity.
Qed.

(** So it fails although the file is in the directory of the target, when the
    working directory has a file with this path. *)
Theorem C81_hidden_refuted : ~ (forall is_file cwd root t sub target stub q d,
  one_path stub q -> is_file (file_in root t q) = true -> path_parent d = path_parent (file_in root t sub) ->
  exists u, rewrite_path is_file cwd true (Some d) (Target root t sub) target stub = Ok u).
Proof.
  intros H.
  destruct (H (files [lit "css/a.css"; lit "/p/html/css/a.css"]) [lit "w"] (of_str (lit "/p")) (lit "html") (of_str (lit "ch1/b.html")) (lit ".html")
    (lit "/css/a.css") (of_str (lit "css/a.css")) (of_str (lit "/p/html/ch1/b.html")) css_path) as (u & E);
    [vm_compute; reflexivity|vm_compute; reflexivity|]. vm_compute in E. discriminate.
Qed.

(** The directory of the page is not searched first: its file is passed over for
    that of the directory of the target. *)
Theorem C81_precedence_refuted : ~ (forall is_file cwd root t sub target stub q d u,
  one_path stub q -> is_file q = false -> is_file (stray q) = false ->
  is_file (path_join (path_parent (file_in root t sub)) q) = true -> d = file_in root t sub ->
  rewrite_path is_file cwd true (Some d) (Target root t sub) target stub = Ok u ->
  follow (location cwd (path_parent d)) u = location cwd (path_join (path_parent d) q)).
Proof.
  intros H.
  specialize (H (files [lit "/p/html/ch1/css/a.css"; lit "/p/html/css/a.css"]) [lit "w"] (of_str (lit "/p")) (lit "html") (of_str (lit "ch1/b.html")) (lit ".html")
    (lit "/css/a.css") (of_str (lit "css/a.css")) (of_str (lit "/p/html/ch1/b.html")) (lit "../css/a.css") css_path).
  assert (C : follow (location [lit "w"] (path_parent (of_str (lit "/p/html/ch1/b.html")))) (lit "../css/a.css") =
    location [lit "w"] (path_join (path_parent (of_str (lit "/p/html/ch1/b.html"))) (of_str (lit "css/a.css")))).
  { apply H; vm_compute; reflexivity. }
  vm_compute in C. discriminate.
Qed.

(** For a page in another directory than that of the document, like the table of
    contents of a book, the link leads elsewhere. *)
Theorem C81_elsewhere_refuted : ~ (forall is_file cwd root t sub target stub q d u,
  one_path stub q -> is_file q = false -> is_file (stray q) = false -> is_file (file_in root t q) = true ->
  rewrite_path is_file cwd true (Some d) (Target root t sub) target stub = Ok u ->
  follow (location cwd (path_parent (file_in root t sub))) u = location cwd (file_in root t q)).
Proof.
  intros H.
  specialize (H (files [lit "/p/html/css/a.css"]) [lit "w"] (of_str (lit "/p")) (lit "html") (of_str (lit "toc.html")) (lit ".html")
    (lit "/css/a.css") (of_str (lit "css/a.css")) (of_str (lit "/p/html/ch1/b.html")) (lit "../css/a.css") css_path).
  assert (C : follow (location [lit "w"] (path_parent (file_in (of_str (lit "/p")) (lit "html") (of_str (lit "toc.html"))))) (lit "../css/a.css") =
    location [lit "w"] (file_in (of_str (lit "/p")) (lit "html") (of_str (lit "css/a.css")))).
  { apply H; vm_compute; reflexivity. }
  vm_compute in C. discriminate.
Qed.

Example C81_ex : let fs := files [lit "/p/html/css/a.css"] in let q := of_str (lit "css/a.css") in
  let out := Target (of_str (lit "/p")) (lit "html") (of_str (lit "ch1/b.html")) in
  one_path (lit "/css/a.css") q /\ fs q = false /\ fs (stray q) = false /\ fs (file_in (of_str (lit "/p")) (lit "html") q) = true /\
  names [lit "w"] /\ strip_c 46%N (path_str q) = path_str q /\
  rewrite_path fs [lit "w"] true (Some (full out)) out (lit ".html") (lit "/css/a.css") = Ok (lit "../css/a.css") /\
  rewrite_path fs [lit "w"] false (Some (full out)) out (lit ".html") (lit "/css/a.css") = Ok (lit "/html/css/a.css") /\
  rewrite_path (files [lit "/p/html/ch1/css/a.css"]) [lit "w"] true (Some (full out)) out (lit ".html") (lit "/css/a.css") = Ok (lit "css/a.css").
Proof.
  cbv zeta. split; [exact css_path|]. split; [vm_compute; reflexivity|]. split; [vm_compute; reflexivity|]. split; [vm_compute; reflexivity|].
  split. { split; [|vm_compute; intuition discriminate]. intros n [<-|[]]. split; [discriminate|]. split; [discriminate|]. vm_compute. intuition discriminate. }
  split; [vm_compute; reflexivity|]. split; [vm_compute; reflexivity|]. split; vm_compute; reflexivity.
Qed.

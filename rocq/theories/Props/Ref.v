(** C63: where references lead and what they show *)
From Coq Require Import String List Bool Arith NArith Lia.
From Verif.Base Require Import Str StrFacts Dict DictFacts Result PurePath.
From Verif.Model Require Import Paths Labels Ref.
From Verif.Spec Require Import Paths Labels Ref.
From Verif.Proof Require Import Paths Labels.
From Verif.Props Require Paths Labels.
Import ListNotations.

Lemma by_id_fold docs : forall acc : dict str document, wf acc -> NoDup (map d_id docs) -> (forall d, In d docs -> ~ In (d_id d) (keys acc)) ->
  fold_left (fun r x => set (d_id x) x r) docs acc = acc ++ map (fun d => (d_id d, d)) docs.
Proof.
  induction docs as [|x docs IH]; intros acc W Nd Hf; cbn [fold_left map]; [now rewrite app_nil_r|].
  inversion Nd as [|? ? Hn Nd']; subst. assert (Es : set (d_id x) x acc = acc ++ [(d_id x, x)]).
  { assert (Hx : ~ In (d_id x) (keys acc)) by (apply Hf; now left). clear -Hx. induction acc as [|[k v] acc IH]; [reflexivity|]. cbn [set].
    destruct (eqb_spec (d_id x) k) as [E|N]; [exfalso; apply Hx; left; now symmetry|]. cbn [app]. rewrite IH; [reflexivity|]. intros Hi. apply Hx. now right. }
  rewrite IH.
  - rewrite Es, <- app_assoc. reflexivity.
  - now apply wf_set.
  - exact Nd'.
  - intros d Hd. rewrite Es. unfold keys. rewrite map_app, in_app_iff. cbn [map fst In]. intros [H|[H|[]]].
    + exact (Hf d (or_intror Hd) H).
    + apply Hn. rewrite H. now apply in_map.
Qed.
Lemma documents_by_id_eq docs : NoDup (map d_id docs) -> documents_by_id docs = Ok (map (fun d => (d_id d, d)) docs).
Proof.
  intros Nd. unfold documents_by_id. rewrite by_id_fold by (try exact Nd; try constructor; intros d _ []). cbn [app]. rewrite map_length, Nat.ltb_irrefl. reflexivity.
Qed.
Lemma lookup_docs docs d : NoDup (map d_id docs) -> In d docs -> lookup (d_id d) (map (fun d => (d_id d, d)) docs) = Some d.
Proof.
  induction docs as [|x docs IH]; intros Nd Hi; [destruct Hi|]. cbn [map] in Nd. inversion Nd as [|? ? Hn Nd']; subst. cbn [map lookup].
  destruct Hi as [->|Hi]; [now rewrite eqb_refl|]. destruct (eqb_spec (d_id d) (d_id x)) as [E|_]; [|apply IH; assumption].
  exfalso. apply Hn. rewrite <- E. now apply in_map.
Qed.
Lemma same_doc docs a b : NoDup (map d_id docs) -> In a docs -> In b docs -> d_id a = d_id b -> a = b.
Proof. intros Nd Ha Hb E. pose proof (lookup_docs _ _ Nd Ha) as L1. pose proof (lookup_docs _ _ Nd Hb) as L2. rewrite E, L2 in L1. congruence. Qed.

(** The characters of relative links *)
Lemma join_In (sep : str) l c : In c (join sep l) -> In c sep \/ exists x, In x l /\ In c x.
Proof.
  induction l as [|x l IH]; [intros []|]. destruct l as [|y l]; [intros H; right; exists x; split; [now left|exact H]|].
  rewrite join_cons by discriminate. intros H. apply in_app_or in H as [H|H]; [right; exists x; split; [now left|exact H]|]. apply in_app_or in H as [H|H]; [now left|].
  destruct (IH H) as [S|(z & Hz & Hc)]; [now left|right; exists z; split; [now right|exact Hc]].
Qed.
Lemma relative_url_chars cwd x d : plain_names cwd -> plain_names (parts (full x)) -> wf_path d ->
  relative_url cwd x d <> nil /\ forall c, In c (relative_url cwd x d) -> c <> 63%N /\ c <> 35%N.
Proof.
  intros C Px Wd.
  assert (C1 : forall n, In n cwd -> n <> nil /\ n <> lit "." /\ ~ In 47%N n) by (intros n Hn; destruct (C n Hn) as (?&?&?&_); auto).
  assert (Wx : wf_path (full x)) by (intros n Hn; destruct (Px n Hn) as (?&?&?&_); auto).
  unfold relative_url, relpath. pose proof (Props.Paths.abs_parts_names cwd _ Wx C1) as Nl.
  assert (Nm : forall n, In n (abs_parts cwd (full x)) -> ~ In 63%N n /\ ~ In 35%N n).
  { intros n Hn. unfold abs_parts in Hn. apply norm_names in Hn; [|intros y []]. destruct Hn as [_ [[]|H2]]. destruct (absolute (full x)).
    - destruct (Px n H2) as (_&_&_&?&?); auto.
    - apply in_app_or in H2 as [H2|H2]; [destruct (C n H2) as (_&_&_&?&?)|destruct (Px n H2) as (_&_&_&?&?)]; auto. }
  set (s := abs_parts cwd (path_parent d)) in *. set (l := abs_parts cwd (full x)) in *. clearbody s l.
  set (r := repeat (lit "..") (List.length s - common s l) ++ skipn (common s l) l).
  assert (Rr : forall y, In y r -> (y <> nil /\ ~ In 47%N y) /\ ~ In 63%N y /\ ~ In 35%N y).
  { intros y Hy. unfold r in Hy. apply in_app_or in Hy as [Hy|Hy].
    - apply repeat_spec in Hy. subst y. split; [split; [discriminate|]|split]; vm_compute; intuition discriminate.
    - assert (Hl : In y l) by (rewrite <- (firstn_skipn (common s l) l); apply in_or_app; now right).
      destruct (Nl y Hl) as ((?&?&?)&_). destruct (Nm y Hl). auto. }
  destruct r as [|y r'] eqn:Er.
  - split; [discriminate|]. intros c Hc. vm_compute in Hc. destruct Hc as [<-|[]]. split; discriminate.
  - rewrite <- Er in *. unfold clean_url.
    assert (R2 : forall y, In y r -> y <> nil /\ ~ In 47%N y) by (intros z Hz; apply Rr; exact Hz).
    rewrite join_last by auto. rewrite dbl_slash_id by (apply join_no_dbl; auto). split.
    + destruct (R2 y) as [Hy _]; [rewrite Er; now left|]. rewrite Er. destruct r'; [exact Hy|]. rewrite join_cons by discriminate.
      intros E. apply app_eq_nil in E as [E _]. congruence.
    + intros c Hc. apply join_In in Hc as [Hc|(z & Hz & Hc)]; [vm_compute in Hc; destruct Hc as [<-|[]]; split; discriminate|].
      destruct (Rr z Hz) as (_ & H1 & H2). split; intros ->; auto.
Qed.
Lemma url_path_app u r : (forall c, In c u -> c <> 63%N /\ c <> 35%N) -> url_path (u ++ 35%N :: r) = u /\ url_anchor (u ++ 35%N :: r) = Some r /\ url_path u = u /\ url_anchor u = None.
Proof.
  induction u as [|c u IH]; intros H; [repeat split; reflexivity|]. destruct IH as (A & B & C & D); [intros x Hx; apply H; now right|].
  destruct (H c (or_introl eq_refl)) as [H1 H2]. cbn [app url_path url_anchor].
  rewrite (proj2 (N.eqb_neq c 63) H1), (proj2 (N.eqb_neq c 35) H2). cbn [orb]. rewrite A, B, C, D. auto.
Qed.

Lemma url_leads cwd docs own d t x y l :
  plain_names cwd -> ~ In (lit "..") cwd ->
  NoDup (map d_id docs) -> In own docs -> In d docs -> l_doc l = d_id d ->
  startswith t (lit ".") = false -> d_file d (lit "." ++ t) = Some x -> d_file own (lit "." ++ t) = Some y ->
  (exists r s, x = Target r t s) -> plain_names (parts (full x)) -> plain_names (parts (full y)) ->
  exists u, url cwd {| o_id := d_id own; o_doc := own; o_docs := docs |} t (l_content l) l = Ok u /\
    leads_to cwd (full y) u (full x) (if l_content l then Some (l_id l) else None).
Proof.
  intros C C2 Nd Ho Hd El Ht Ex Ey (r & s & Et) Px Py. unfold url, label_document. cbn [o_id o_doc o_docs].
  assert (Wy : wf_path (full y)) by (intros n Hn; destruct (Py n Hn) as (?&?&?&_); auto).
  assert (Wx : wf_path (full x)) by (intros n Hn; destruct (Px n Hn) as (?&?&?&_); auto).
  assert (C1 : forall n, In n cwd -> n <> nil /\ n <> lit "." /\ ~ In 47%N n) by (intros n Hn; destruct (C n Hn) as (?&?&?&_); auto).
  destruct (eqb_spec (d_id own) (l_doc l)) as [Es|Ns].
  - assert (own = d) by (apply (same_doc docs); congruence). subst own. assert (y = x) by congruence. subst y.
    eexists. split; [reflexivity|]. unfold leads_to. destruct (l_content l); (split; [reflexivity|left; split; reflexivity]).
  - rewrite (documents_by_id_eq _ Nd). cbn [bind]. rewrite El, (lookup_docs _ _ Nd Hd). unfold target_file, dotted. rewrite Ht, Ex. cbn [bind].
    assert (Ef : file_target x = lit "." ++ t) by (subst x; unfold file_target, dotted; now rewrite Ht).
    rewrite Ef, Ey. cbn [bind]. eexists. split; [reflexivity|].
    destruct (relative_url_chars cwd x (full y) C Px Wy) as [Hn Hc]. destruct (url_path_app _ (l_id l) Hc) as (A & B & D & E).
    assert (F := Props.Paths.C39_relative cwd x (full y) C1 C2 Wx Wy). unfold leads_to. destruct (l_content l).
    + change (lit "#" ++ l_id l) with (35%N :: l_id l). split; [exact B|]. right. rewrite A. split; assumption.
    + split; [exact E|]. right. rewrite D. split; assumption.
Qed.

Lemma no_sep sep id : contains id (sep_of sep) = false -> names_label (sep_of sep) id.
Proof. intros E a b ->. assert (C : contains (a ++ sep_of sep ++ b) (sep_of sep) = true) by (apply contains_iff; eauto). congruence. Qed.
Lemma found_only h e id l : names_label (sep_of (e_sep e)) id -> In l (project_labels e h) -> l_id l = id -> only_label (project_labels e h) l ->
  fst (get_label e (e_sep e) id (run h)) = Ok l.
Proof.
  intros Hn Hl Ei Hu. destruct (Props.Labels.C14_without_document h e (e_sep e) id Hn) as (E1 & E2 & _). cbv zeta in *. apply E2. rewrite E1.
  fold (project_labels e h). clear E1 E2. subst id.
  set (ls := project_labels e h) in *. clearbody ls. induction ls as [|z ls IH]; [destruct Hl|].
  destruct (eqb_spec (l_id z) (l_id l)) as [Ez|Nz].
  - assert (z = l) by (apply Hu; [now left|exact Ez]). subst z. exists nil, ls. split; [reflexivity|]. split; [reflexivity|]. intros y [].
  - destruct Hl as [->|Hl]; [congruence|]. destruct IH as (a & b & -> & Eb & Ha); [exact Hl|intros y Hy; apply Hu; now right|].
    exists (z :: a), b. split; [reflexivity|]. split; [exact Eb|]. intros y [<-|Hy]; [exact Nz|now apply Ha].
Qed.
Lemma ref_label_In h e content l : ref_label e content (run h) = Ok l -> In l (project_labels e h).
Proof.
  unfold ref_label, get_label, project_labels. destruct (Inv_register e _ (Inv_run h)) as (W & K & _).
  destruct (parse_id (e_sep e) (strip content)) as [[d|] i]; cbn [fst].
  - destruct (lookup (d, i) (m_labels (register e (run h)))) as [y|] eqn:L; [|discriminate]. intros [= ->]. unfold values.
    apply lookup_In in L. apply (in_map snd) in L. exact L.
  - destruct (find _ _) as [[k y]|] eqn:F; [|discriminate]. intros [= ->]. apply find_some in F as [F _]. apply (in_map snd) in F. exact F.
Qed.

(** A reference to the label of a document of the project gives a link, and the link leads to the file of
    that document for the target, at the anchor with the id of the label; for the label of the document
    itself, to the file. *)
Theorem C63_reference : forall h e docs own cwd d id content x y t l,
  plain_names cwd -> ~ In (lit "..") cwd -> sep_of (e_sep e) <> nil ->
  NoDup (map d_id docs) -> In own docs -> In d docs ->
  names_both (sep_of (e_sep e)) (strip content) (d_id d) id ->
  In l (project_labels e h) -> l_doc l = d_id d -> l_id l = id ->
  startswith t (lit ".") = false -> d_file d (lit "." ++ t) = Some x -> d_file own (lit "." ++ t) = Some y ->
  (exists r s, x = Target r t s) -> plain_names (parts (full x)) -> plain_names (parts (full y)) ->
  exists u, ref_url cwd e {| o_id := d_id own; o_doc := own; o_docs := docs |} t content (run h) = Ok u /\
    leads_to cwd (full y) u (full x) (if l_content l then Some id else None).
Proof.
  intros h e docs own cwd d id content x y t l C C2 Hs Nd Ho Hd Hn Hl Ed Ei Ht Ex Ey Et Px Py.
  destruct (Props.Labels.C14_with_document h e (e_sep e) (strip content) (d_id d) id Hs Hn) as (E1 & E2 & _). cbv zeta in *.
  assert (F : fst (get_label e (e_sep e) (strip content) (run h)) = Ok l) by (apply E2; rewrite E1; auto).
  unfold ref_url, ref_label. rewrite F. cbn [bind]. subst id. eapply url_leads; eauto.
Qed.
(** The same for a reference without a document, if only one label has the id. *)
Theorem C63_reference_partial : forall h e docs own cwd d content x y t l,
  plain_names cwd -> ~ In (lit "..") cwd ->
  NoDup (map d_id docs) -> In own docs -> In d docs ->
  names_label (sep_of (e_sep e)) (strip content) ->
  In l (project_labels e h) -> l_doc l = d_id d -> l_id l = strip content -> only_label (project_labels e h) l ->
  startswith t (lit ".") = false -> d_file d (lit "." ++ t) = Some x -> d_file own (lit "." ++ t) = Some y ->
  (exists r s, x = Target r t s) -> plain_names (parts (full x)) -> plain_names (parts (full y)) ->
  exists u, ref_url cwd e {| o_id := d_id own; o_doc := own; o_docs := docs |} t content (run h) = Ok u /\
    leads_to cwd (full y) u (full x) (if l_content l then Some (l_id l) else None).
Proof.
  intros h e docs own cwd d content x y t l C C2 Nd Ho Hd Hn Hl Ed Ei Hu Ht Ex Ey Et Px Py.
  assert (F : fst (get_label e (e_sep e) (strip content) (run h)) = Ok l) by (apply found_only; auto).
  unfold ref_url, ref_label. rewrite F. cbn [bind]. eapply url_leads; eauto.
Qed.
(** A reference to the label of another document that has no file for the target has no link: the build
    fails. *)
Theorem C63_no_file_refuted : ~ (forall h e docs own d cwd t id l y,
  NoDup (map d_id docs) -> In own docs -> In d docs -> In l (project_labels e h) -> l_doc l = d_id d -> l_id l = id ->
  d_file own (lit "." ++ t) = Some y ->
  exists u, ref_url cwd e {| o_id := d_id own; o_doc := own; o_docs := docs |} t (d_id d ++ lit "::" ++ id) (run h) = Ok u).
Proof.
  intros H.
  pose (b := {| d_id := lit "b.dm"; d_file := fun t => None |}).
  pose (y := Target (of_str (lit "/p")) (lit "html") (of_str (lit "a.html"))).
  pose (a := {| d_id := lit "a.dm"; d_file := fun t => if eqb t (lit ".html") then Some y else None |}).
  specialize (H [OAdd (lit "intro") None true None (Some (lit "b.dm"))] (Env None None (Some [lit "a.dm"; lit "b.dm"]))
    [a; b] a b nil (lit "html") (lit "intro") (Label 0 (lit "b.dm") (lit "intro") None true None no_links) y).
  destruct H as (u & E); try reflexivity; [|now left|right; now left|now left|discriminate E].
  constructor; [intros [E|[]]; discriminate E|constructor; [intros []|constructor]].
Qed.
(** The documents of a project may have entries doc_id in their headers.  Their labels are then not labels
    of a document of the project and cannot be referred to. *)
Theorem C63_doc_id_refuted : ~ (forall h e doc id kind l,
  fst (add_label id kind true (e_sep e) (Some doc) (run h)) = Ok l ->
  exists x, ref_label e (doc ++ lit "::" ++ id) (snd (add_label id kind true (e_sep e) (Some doc) (run h))) = Ok x).
Proof.
  intros H. destruct (H nil (Env None None (Some [lit "a.dm"])) (lit "mine") (lit "intro") None
    (Label 0 (lit "mine") (lit "intro") None true None no_links) eq_refl) as (x & E). discriminate E.
Qed.

(** ** What is shown *)

(** The number and the title in the text of a reference are those of the label that it leads to, if no
    other label has the id. *)
Theorem C63_shown_partial : forall h e content l,
  ref_label e content (run h) = Ok l -> names_label (sep_of (e_sep e)) (l_id l) -> only_label (project_labels e h) l ->
  ref_shows e content (run h) = Ok l.
Proof.
  intros h e content l E Hn Hu. unfold ref_shows. rewrite E. cbn [bind]. unfold shown_label. apply found_only; auto.
  eapply ref_label_In. exact E.
Qed.
(** Finding: in general they are not.  A reference that leads to the introduction of b.dm shows the number
    of the introduction of a.dm. *)
Theorem C63_shown_refuted : ~ (forall h e content l x,
  ref_label e content (run h) = Ok l -> ref_shows e content (run h) = Ok x -> l_doc x = l_doc l).
Proof.
  intros H. specialize (H [OAdd (lit "intro") None true None (Some (lit "a.dm")); OAdd (lit "intro") None true None (Some (lit "b.dm"))]
    (Env None None (Some [lit "a.dm"; lit "b.dm"])) (lit "b.dm::intro") _ _ eq_refl eq_refl). discriminate H.
Qed.
(** A heading shows its own number, if no other label has its id. *)
Theorem C63_heading_partial : forall h e l,
  In l (project_labels e h) -> strip (l_id l) = l_id l -> names_label (sep_of (e_sep e)) (l_id l) -> only_label (project_labels e h) l ->
  heading_shows e (l_id l) (run h) = Ok l.
Proof. intros h e l Hl Es Hn Hu. unfold heading_shows, shown_label. rewrite Es. apply found_only; auto. Qed.
(** Finding: in general it does not: the introduction of b.dm shows the number of the introduction of a.dm. *)
Theorem C63_heading_refuted : ~ (forall h e l x,
  In l (project_labels e h) -> strip (l_id l) = l_id l -> names_label (sep_of (e_sep e)) (l_id l) ->
  heading_shows e (l_id l) (run h) = Ok x -> l_doc x = l_doc l).
Proof.
  intros H. specialize (H [OAdd (lit "intro") None true None (Some (lit "a.dm")); OAdd (lit "intro") None true None (Some (lit "b.dm"))]
    (Env None None (Some [lit "a.dm"; lit "b.dm"])) (Label 1 (lit "b.dm") (lit "intro") None true None no_links) _
    ltac:(right; now left) eq_refl ltac:(apply no_sep; reflexivity) eq_refl). discriminate H.
Qed.

(** ** Anchors *)

(** The id of the label of a heading is the anchor of the heading. *)
Theorem C63_anchor_partial : forall h e id kind doc l,
  names_label (sep_of (e_sep e)) id -> fst (add_label id kind true (e_sep e) (Some doc) (run h)) = Ok l ->
  l_id l = heading_anchor id /\ l_doc l = doc.
Proof.
  intros h e id kind doc l Hn E. unfold add_label in E. rewrite (Props.Labels.parse_label _ _ Hn) in E.
  destruct (has (doc, id) (m_labels (run h))); [discriminate|]. cbn [fst] in E. injection E as <-. split; reflexivity.
Qed.
(** Finding: not so for an id with a document, so that the links to the heading do not find it. *)
Theorem C63_anchor_refuted : ~ (forall h e id kind doc l,
  fst (add_label id kind true (e_sep e) (Some doc) (run h)) = Ok l -> l_id l = heading_anchor id).
Proof. intros H. specialize (H nil (Env None None None) (lit "b.dm::intro") None (lit "b.dm") _ eq_refl). discriminate H. Qed.

(** ** Examples *)

Definition file_in (sub : str) : xpath := Target (of_str (lit "/p")) (lit "html") (of_str sub).
Definition doc_in (id sub : str) : document := {| d_id := id; d_file := fun t => if eqb t (lit ".html") then Some (file_in sub) else None |}.
Definition ex_docs : list document := [doc_in (lit "a.dm") (lit "a.html"); doc_in (lit "ch1/b.dm") (lit "ch1/b.html")].
Definition ex_env : env := Env None None (Some (map d_id ex_docs)).
Definition ex_history : list op :=
  [OAdd (lit "doc:a") None false None (Some (lit "a.dm")); OAdd (lit "intro") None true None (Some (lit "a.dm"));
   OAdd (lit "fig-1") None true None (Some (lit "ch1/b.dm"))].
Lemma ex_names sub : forallb (fun n => negb (eqb n nil) && negb (eqb n (lit ".")) && negb (mem 47%N n) && negb (mem 63%N n) && negb (mem 35%N n)) (parts (full (file_in sub))) = true ->
  plain_names (parts (full (file_in sub))).
Proof.
  intros H n Hn. apply (proj1 (forallb_forall _ _) H) in Hn. rewrite !andb_true_iff, !negb_true_iff in Hn. destruct Hn as ((((A & B) & C) & D) & E).
  split; [now apply eqb_neq|]. split; [now apply eqb_neq|]. split; [now apply mem_not_In|]. split; now apply mem_not_In.
Qed.

Lemma ex_both : names_both (lit "::") (lit "a.dm::intro") (lit "a.dm") (lit "intro").
Proof.
  split; [reflexivity|]. intros a b E.
  do 11 (destruct a as [|? a]; [first [discriminate E | injection E as <-; auto]|injection E as <- E; try discriminate E]).
  destruct a; discriminate E.
Qed.
Example C63_ex :
  let own := doc_in (lit "ch1/b.dm") (lit "ch1/b.html") in let d := doc_in (lit "a.dm") (lit "a.html") in
  let l := Label 1 (lit "a.dm") (lit "intro") None true None no_links in
  plain_names [lit "p"] /\ ~ In (lit "..") [lit "p"] /\ NoDup (map d_id ex_docs) /\ In own ex_docs /\ In d ex_docs /\
  names_both (sep_of (e_sep ex_env)) (strip (lit " a.dm::intro ")) (d_id d) (lit "intro") /\
  In l (project_labels ex_env ex_history) /\ only_label (project_labels ex_env ex_history) l /\
  plain_names (parts (full (file_in (lit "a.html")))) /\ plain_names (parts (full (file_in (lit "ch1/b.html")))) /\
  ref_url [lit "p"] ex_env {| o_id := d_id own; o_doc := own; o_docs := ex_docs |} (lit "html") (lit " a.dm::intro ") (run ex_history) = Ok (lit "../a.html#intro") /\
  ref_url [lit "p"] ex_env {| o_id := d_id own; o_doc := own; o_docs := ex_docs |} (lit "html") (lit "doc:a") (run ex_history) = Ok (lit "../a.html") /\
  ref_url [lit "p"] ex_env {| o_id := d_id own; o_doc := own; o_docs := ex_docs |} (lit "html") (lit "fig-1") (run ex_history) = Ok (lit "#fig-1").
Proof.
  cbv zeta. split; [intros n [<-|[]]; repeat split; vm_compute; intuition discriminate|].
  split; [intros [E|[]]; discriminate E|].
  split; [constructor; [intros [E|[]]; discriminate E|constructor; [intros []|constructor]]|].
  split; [right; now left|]. split; [now left|].
  split; [exact ex_both|].
  split; [right; now left|].
  split; [intros y [<-|[<-|[<-|[]]]] E; try discriminate E; reflexivity|].
  split; [apply ex_names; reflexivity|]. split; [apply ex_names; reflexivity|].
  split; [vm_compute; reflexivity|]. split; vm_compute; reflexivity.
Qed.

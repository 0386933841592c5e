(** C48: the root documents and target directories of projects. *)
From Coq Require Import List Bool Arith Lia NArith Permutation.
From Verif.Base Require Import Str StrFacts PurePath.
From Verif.Model Require Import ListUtils Environment.
From Verif.Spec Require Import Environment.
From Verif.Proof Require Import Attributes.
Import ListNotations.

Lemma parents_In d p : In p (parents d) <-> above p d.
Proof.
  revert p. induction d as [|x d IH]; intros p; cbn [parents].
  - split; [intros []|]. intros (y & r & E). destruct p; discriminate.
  - split.
    + intros [<-|Hi]; [exists x, d; reflexivity|]. apply in_map_iff in Hi as (q & <- & Hq).
      apply IH in Hq as (y & r & ->). exists y, r. reflexivity.
    + intros (y & r & E). destruct p as [|z p]; [left; reflexivity|right]. injection E as -> E.
      apply in_map, IH. exists y, r. exact E.
Qed.
Section Search.
Context (entries : list entry) (order : list (list str) -> list (list str)) (ext : str).
Hypothesis Horder : forall l, Permutation l (order l).
Lemma order_In l x : In x (order l) <-> In x l.
Proof. split; apply Permutation_in; [apply Permutation_sym|]; apply Horder. Qed.
Lemma matches_iff e : matches ext e = true <-> source_name ext (base e).
Proof. unfold matches. rewrite endswith_iff. reflexivity. Qed.
Lemma paths_In p : In p (paths entries order ext) <-> exists n, exists_in entries p n /\ source_name ext n.
Proof.
  unfold paths. rewrite order_In, uniq_In, in_map_iff. split.
  - intros (e & <- & He). apply filter_In in He as [He Hm]. exists (base e). split; [exists e; auto|apply matches_iff, Hm].
  - intros (n & (e & He & <- & <-) & Hn). exists e. split; [reflexivity|]. apply filter_In. split; [exact He|apply matches_iff, Hn].
Qed.
Lemma basepaths_In p : In p (basepaths entries order ext) <->
  In p (paths entries order ext) /\ forall q, above q p -> ~ In q (paths entries order ext).
Proof.
  unfold basepaths. rewrite order_In, filter_In, negb_true_iff. split; intros [H1 H2]; (split; [exact H1|]).
  - intros q Hq Hin. apply parents_In in Hq.
    assert (existsb (fun q => mem q (paths entries order ext)) (parents p) = true); [|congruence].
    apply existsb_exists. exists q. split; [exact Hq|apply mem_In, Hin].
  - destruct (existsb _ (parents p)) eqn:E; [|reflexivity]. apply existsb_exists in E as (q & Hq & Hm).
    exfalso. apply (H2 q); [apply parents_In, Hq|apply mem_In, Hm].
Qed.
End Search.

(** * C48 *)

(** The root documents are the sources in directories without sources above. *)
Theorem C48_roots :
  forall (entries : list entry) (order : list (list str) -> list (list str)) (ext : str),
    (forall l, Permutation l (order l)) ->
    forall d n, In (d, n) (src_filepaths entries order ext) <-> root_source entries ext d n.
Proof.
  intros entries order ext Ho d n. unfold src_filepaths. rewrite in_flat_map. split.
  - intros (p & Hp & Hi). apply in_map_iff in Hi as (e & [= -> <-] & He). apply filter_In in He as [He Hm].
    apply andb_true_iff in Hm as [Hd Hm]. destruct (eqb_spec (dir e) d) as [Hd'|]; [|discriminate].
    apply basepaths_In in Hp as [_ Hp]; [|exact Ho].
    split; [exists e; auto|]. split; [apply matches_iff, Hm|].
    intros (d' & n' & Ha & He' & Hn'). apply (Hp d' Ha). apply paths_In; [exact Ho|]. eauto.
  - intros ((e & He & <- & <-) & Hn & Hno). exists (dir e). split.
    + apply basepaths_In; [exact Ho|]. split.
      * apply paths_In; [exact Ho|]. exists (base e). split; [exists e; auto|exact Hn].
      * intros q Hq Hin. apply paths_In in Hin as (n' & H1 & H2); [|exact Ho]. apply Hno. eauto.
    + apply in_map_iff. exists e. split; [reflexivity|]. apply filter_In. split; [exact He|].
      rewrite eqb_refl. cbn [andb]. apply matches_iff, Hn.
Qed.
(** A given file is the only root document. *)
Theorem C48_projects :
  forall (entries : list entry) (order : list (list str) -> list (list str)) (ext : str) (file : option (list str * str)),
    (forall l, Permutation l (order l)) ->
    forall d n, In (d, n) (root_filepaths entries order ext file) <->
      match file with Some f => f = (d, n) | None => root_source entries ext d n end.
Proof.
  intros entries order ext [f|] Ho d n; cbn [root_filepaths]; [|apply C48_roots, Ho]. split; [intros [H|[]]; exact H|left; assumption].
Qed.
(** Each once, if the entries are. *)
Theorem C48_once :
  forall (entries : list entry) (order : list (list str) -> list (list str)) (ext : str),
    (forall l, Permutation l (order l)) -> NoDup (map (fun e => (dir e, base e)) entries) ->
    NoDup (src_filepaths entries order ext).
Proof.
  intros entries order ext Ho Hn. unfold src_filepaths.
  assert (Hb : NoDup (basepaths entries order ext)).
  { unfold basepaths. eapply Permutation_NoDup; [apply Ho|]. apply NoDup_filter.
    unfold paths. eapply Permutation_NoDup; [apply Ho|]. apply uniq_NoDup. }
  induction Hb as [|p l Hp _ IH]; [constructor|]. cbn [flat_map].
  assert (G : forall (l1 l2 : list (list str * str)), NoDup l1 -> NoDup l2 -> (forall x, In x l1 -> In x l2 -> False) -> NoDup (l1 ++ l2)).
  { clear. induction l1 as [|x l1 IH]; intros l2 H1 H2 H; [exact H2|]. apply NoDup_cons_iff in H1 as [Hx H1]. cbn [app].
    constructor.
    - intros Hi. apply in_app_or in Hi as [Hi|Hi]; [contradiction|]. apply (H x); [left; reflexivity|exact Hi].
    - apply IH; auto. intros y Hy. apply H. right. exact Hy. }
  apply G; [|exact IH|].
  - clear IH Hp. induction entries as [|e es IH]; [constructor|]. cbn [map] in Hn. apply NoDup_cons_iff in Hn as [Hni Hn].
    cbn [filter]. destruct (eqb_spec (dir e) p) as [Hd|]; [|exact (IH Hn)]. cbn [andb].
    destruct (matches ext e); [|exact (IH Hn)]. cbn [map]. constructor; [|exact (IH Hn)].
    intros Hi. apply in_map_iff in Hi as (e' & [= E] & He'). apply filter_In in He' as [He' Hm].
    apply andb_true_iff in Hm as [Hd' _]. destruct (eqb_spec (dir e') p) as [Hd''|]; [|discriminate].
    apply Hni. apply in_map_iff. exists e'. split; [congruence|exact He'].
  - intros [d n] Hi Hj. apply in_map_iff in Hi as (e & [= <- _] & _).
    apply in_flat_map in Hj as (q & Hq & Hj). apply in_map_iff in Hj as (e' & [= <- _] & _). contradiction.
Qed.
(** No project is inside of another. *)
Theorem C48_apart :
  forall (entries : list entry) (order : list (list str) -> list (list str)) (ext : str),
    (forall l, Permutation l (order l)) ->
    forall d n d' n', In (d, n) (src_filepaths entries order ext) -> In (d', n') (src_filepaths entries order ext) -> ~ above d d'.
Proof.
  intros entries order ext Ho d n d' n' H H' Ha.
  apply (C48_roots _ _ _ Ho) in H as (H1 & H2 & _). apply (C48_roots _ _ _ Ho) in H' as (_ & _ & H3).
  apply H3. eauto.
Qed.
(** Every source is in a project: its directory is the one of a root document or below. *)
Theorem C48_covered :
  forall (entries : list entry) (order : list (list str) -> list (list str)) (ext : str),
    (forall l, Permutation l (order l)) ->
    forall d n, exists_in entries d n -> source_name ext n ->
    exists d' n', In (d', n') (src_filepaths entries order ext) /\ (d' = d \/ above d' d).
Proof.
  intros entries order ext Ho d. remember (length d) as k eqn:Hk. revert d Hk.
  induction k as [k IH] using lt_wf_ind. intros d -> n He Hn.
  destruct (existsb (fun q => mem q (paths entries order ext)) (parents d)) eqn:E.
  - apply existsb_exists in E as (q & Hq & Hm). apply parents_In in Hq. apply mem_In in Hm.
    apply paths_In in Hm as (m & H1 & H2); [|exact Ho].
    destruct Hq as (x & r & ->).
    destruct (IH (length q)) with (d := q) (n := m) as (d' & n' & Hi & Hd); [rewrite app_length; cbn; lia|reflexivity|exact H1|exact H2|].
    exists d', n'. split; [exact Hi|]. right. destruct Hd as [->|(y & s & ->)]; [exists x, r; reflexivity|].
    exists y, (s ++ x :: r). rewrite <- app_assoc. reflexivity.
  - exists d, n. split; [|left; reflexivity]. apply (C48_roots _ _ _ Ho). split; [exact He|]. split; [exact Hn|].
    intros (d' & n' & Ha & He' & Hn'). 
    assert (existsb (fun q => mem q (paths entries order ext)) (parents d) = true); [|congruence].
    apply existsb_exists. exists d'. split; [apply parents_In, Ha|]. apply mem_In, (paths_In _ _ _ Ho). eauto.
Qed.
(** Finding: a directory with the name of a source is taken for a document. *)
Theorem C48_files_refuted :
  ~ (forall (entries : list entry) (order : list (list str) -> list (list str)) (ext : str),
      (forall l, Permutation l (order l)) -> forall d n, In (d, n) (src_filepaths entries order ext) ->
      exists e, In e entries /\ dir e = d /\ base e = n /\ is_file e = true).
Proof.
  intros H. destruct (H [mkentry [] (lit "a.dm") false; mkentry [lit "a.dm"] (lit "b.dm") true] (fun l => l) (lit ".dm")
    (fun l => Permutation_refl l) [] (lit "a.dm")) as (e & He & H1 & H2 & H3).
  - left. reflexivity.
  - destruct He as [<-|[<-|[]]]; discriminate.
Qed.
(** The target directory is next to a directory of sources, else it is the project directory. *)
Theorem C48_target_root :
  forall (a : bool) (r : list str) (n : str),
    get_target_root (mkpath a (r ++ [n])) = mkpath a (if eqb n (lit "src") then r else r ++ [n]) /\
    get_target_root (mkpath a []) = mkpath a [].
Proof.
  intros a r n. unfold get_target_root, path_name, path_parent. cbn [parts absolute]. rewrite last_last, removelast_last.
  split; [destruct (eqb n (lit "src"))|]; reflexivity.
Qed.

Example C48_ex :
  let entries := [mkentry [lit "docs"] (lit "src") false; mkentry [lit "docs"; lit "src"] (lit "main.dm") true;
    mkentry [lit "docs"; lit "src"; lit "ch1"] (lit "one.dm") true; mkentry [lit "tests"; lit "x"] (lit "t.dm") true;
    mkentry [lit "docs"; lit "src"] (lit "other.dm") true; mkentry [lit "docs"] (lit "notes.txt") true] in
  src_filepaths entries (fun l => l) (lit ".dm") =
    [([lit "docs"; lit "src"], lit "main.dm"); ([lit "docs"; lit "src"], lit "other.dm"); ([lit "tests"; lit "x"], lit "t.dm")] /\
  NoDup (map (fun e => (dir e, base e)) entries) /\
  get_target_root (of_str (lit "/a/docs/src")) = of_str (lit "/a/docs").
Proof.
  split; [vm_compute; reflexivity|]. split; [|vm_compute; reflexivity].
  repeat (apply NoDup_cons; [cbn; intuition discriminate|]). constructor.
Qed.

(** C72: the preview server and the list of dependencies *)
From Coq Require Import List Bool Arith NArith Lia.
From Verif.Base Require Import Str StrFacts Dict DictFacts Result.
From Verif.Model Require Import Starters Checkers Server.
From Verif.Spec Require Import Server.
From Verif.Props Require Import Starters.
Import ListNotations.

(** ** Files *)
Lemma resolve_plain acc r : Forall plain_name r -> resolve acc r = acc ++ r.
Proof.
  intro H. revert acc. induction H as [|x r (N & D & DD & _) H IH]; intro acc; cbn [resolve]; [now rewrite app_nil_r|].
  rewrite (proj2 (eqb_neq x nil) N), (proj2 (eqb_neq x (lit ".")) D), (proj2 (eqb_neq x (lit "..")) DD). cbn [orb].
  rewrite IH. now rewrite <- app_assoc.
Qed.
Lemma abspath_plain base r : Forall plain_name r -> r <> nil -> abspath base (join (lit "/") r) = base ++ r.
Proof.
  intros H N. unfold abspath.
  assert (S : split_c 47%N (join (lit "/") r) = r).
  { change (lit "/") with [47%N]. apply split_c_join; [exact N|]. intros x I. rewrite Forall_forall in H. apply H in I. apply I. }
  rewrite S. replace (startswith (join (lit "/") r) (lit "/")) with false; [now apply resolve_plain|].
  symmetry. destruct r as [|x r]; [now contradiction N|]. inversion H as [|? ? (Nx & _ & _ & Nc) _]; subst.
  destruct x as [|c x]; [now contradiction Nx|].
  assert (E : exists w, join (lit "/") ((c :: x) :: r) = c :: w) by (destruct r; cbn [join app]; eauto).
  destruct E as [w ->]. destruct (startswith (c :: w) (lit "/")) eqn:B; [|reflexivity]. apply startswith_iff in B as [t B].
  injection B as B _. exfalso. apply Nc. left. exact B.
Qed.

Lemma below_plain root r : r <> nil -> below root (root ++ r) = Some r.
Proof. intro N. apply below_iff. now split. Qed.
Lemma skip_address r : skipn 1 (address r) = join (lit "/") r.
Proof. reflexivity. Qed.
(** A part of a join at the beginning *)
Lemma media_address r : Forall plain_name r -> r <> nil -> startswith (address r) (lit "/media/") = true -> hd nil r = lit "media".
Proof.
  intros H N B. apply startswith_iff in B as [t B]. unfold address in B.
  change (lit "/media/") with (lit "/" ++ lit "media" ++ lit "/") in B. rewrite <- app_assoc in B. apply app_inv_head in B.
  assert (S : split_c 47%N (join (lit "/") r) = r).
  { change (lit "/") with [47%N]. apply split_c_join; [exact N|]. intros x I. rewrite Forall_forall in H. apply H in I. apply I. }
  rewrite B in S. rewrite <- app_assoc in S. change (lit "/" ++ t) with (47%N :: t) in S. rewrite split_c_app in S.
  - rewrite <- S. reflexivity.
  - intro I. vm_compute in I. firstorder discriminate.
Qed.
Lemma route_page r : Forall plain_name r -> r <> nil -> address r <> lit "/".
Proof.
  intros H N E. unfold address in E. change (lit "/") with (lit "/" ++ nil) in E at 3. apply app_inv_head in E.
  destruct r as [|x r]; [now apply N|]. inversion H as [|? ? (Nx & _) _]; subst. destruct x as [|c x]; [now apply Nx|]. destruct r; discriminate E.
Qed.
Definition is_source (q : str) : bool := endswith q (lit ".dm") || endswith q (lit ".tex").
Lemma route_address unquote r : Forall plain_name r -> r <> nil ->
  ~ In r [[lit "checkers"]; [lit "signals"]] -> hd nil r <> lit "media" ->
  exists reload, route unquote (address r) = Some (if is_source (join (lit "/") r) then HSource reload (unquote (join (lit "/") r))
                                                   else HStatic reload (unquote (join (lit "/") r))).
Proof.
  intros H N P M. unfold route.
  assert (Inj : forall x, plain_name x -> address r = lit "/" ++ x -> r = [x]).
  { intros x Px E. unfold address in E. apply app_inv_head in E.
    assert (S : split_c 47%N (join (lit "/") r) = r).
    { change (lit "/") with [47%N]. apply split_c_join; [exact N|]. intros y I. rewrite Forall_forall in H. apply H in I. apply I. }
    rewrite E in S. rewrite <- S. apply split_c_fresh. apply Px. }
  rewrite (proj2 (eqb_neq _ _) (route_page r H N)).
  rewrite (proj2 (eqb_neq (address r) (lit "/checkers"))).
  2: { intro E. apply P. left. symmetry. apply (Inj (lit "checkers")); [|exact E].
       repeat split; try discriminate. intro I. vm_compute in I. firstorder discriminate. }
  rewrite (proj2 (eqb_neq (address r) (lit "/signals"))).
  2: { intro E. apply P. right. left. symmetry. apply (Inj (lit "signals")); [|exact E].
       repeat split; try discriminate. intro I. vm_compute in I. firstorder discriminate. }
  destruct (startswith (address r) (lit "/media/")) eqn:B; [exfalso; apply M; now apply media_address|].
  replace (startswith (address r) (lit "/")) with true by (symmetry; apply startswith_iff; eexists; reflexivity).
  rewrite skip_address. unfold is_source. set (q := join (lit "/") r).
  destruct (endswith q (lit ".dm")); [now exists false|]. destruct (endswith q (lit ".tex")); [now exists true|]. cbn [orb].
  destruct (endswith q (lit ".html") || endswith q (lit ".epub")); eauto.
Qed.

Lemma static_inv f root q s : static f root q = Body s -> exists p, inside root p /\ look f p = Some (File s).
Proof.
  unfold static. destruct (below root (abspath root q)) as [r|] eqn:B; [|discriminate]. apply below_iff in B as [B N].
  destruct (look f (abspath root q)) as [[|x]|] eqn:L; try discriminate. intro E. injection E as ->.
  exists (abspath root q). split; [now exists r | exact L].
Qed.

(** What is sent unchanged is a file below the current directory or the directory of media. *)
Theorem C72_static : forall unquote lexer highlight f cwd media p s,
  respond unquote lexer highlight f cwd media p = Body s ->
  exists q, (inside cwd q \/ inside media q) /\ look f q = Some (File s).
Proof.
  intros unquote lexer highlight f cwd media p s H. unfold respond in H.
  destruct (route unquote p) as [[| | |q|b q|b q]|]; try discriminate H.
  - apply static_inv in H as (q' & I & L). exists q'. auto.
  - apply static_inv in H as (q' & I & L). exists q'. auto.
  - unfold source in H. destruct (lexer q); [|discriminate H]. destruct (look f (abspath cwd q)) as [[|x]|]; discriminate H.
Qed.
(** Every file below the current directory is shown at its address: unchanged, or the source of documents and tex files.
    The exceptions are the pages of the server and a directory with the name media. *)
Theorem C72_served : forall unquote lexer highlight f cwd media r s,
  Forall plain_name r -> r <> nil -> look f (cwd ++ r) = Some (File s) ->
  unquote (join (lit "/") r) = join (lit "/") r ->
  ~ In r [[lit "checkers"]; [lit "signals"]] -> hd nil r <> lit "media" ->
  (is_source (join (lit "/") r) = true -> lexer (join (lit "/") r) = true) ->
  respond unquote lexer highlight f cwd media (address r) =
  if is_source (join (lit "/") r) then Highlighted (highlight (join (lit "/") r) s) else Body s.
Proof.
  intros unquote lexer highlight f cwd media r s H N L U P M X. unfold respond.
  destruct (route_address unquote r H N P M) as [b ->]. rewrite U. destruct (is_source (join (lit "/") r)) eqn:B.
  - unfold source. rewrite (X eq_refl), abspath_plain, L by assumption. reflexivity.
  - unfold static. rewrite abspath_plain, below_plain, L by assumption. reflexivity.
Qed.
(** The files of the directory of media are shown below the address /media/. *)
Theorem C72_media : forall unquote lexer highlight f cwd media r s,
  Forall plain_name r -> r <> nil -> look f (media ++ r) = Some (File s) ->
  unquote (join (lit "/") r) = join (lit "/") r ->
  respond unquote lexer highlight f cwd media (lit "/media" ++ address r) = Body s.
Proof.
  intros unquote lexer highlight f cwd media r s H N L U. unfold respond, route, address. rewrite app_assoc.
  change (lit "/media" ++ lit "/") with (lit "/media/").
  assert (X : forall x, length x < 7 \/ firstn 7 x <> lit "/media/" -> eqb (lit "/media/" ++ join (lit "/") r) x = false).
  { intros x D. apply eqb_neq. intro E. subst x. destruct D as [D|D]; [rewrite app_length in D; vm_compute in D; lia | apply D; reflexivity]. }
  rewrite (X (lit "/")) by (left; vm_compute; lia). rewrite (X (lit "/checkers")) by (right; discriminate).
  rewrite (X (lit "/signals")) by (right; discriminate).
  replace (startswith (lit "/media/" ++ join (lit "/") r) (lit "/media/")) with true by (symmetry; apply startswith_iff; eexists; reflexivity).
  change (skipn 7 (lit "/media/" ++ join (lit "/") r)) with (join (lit "/") r). rewrite U.
  unfold static. rewrite abspath_plain, below_plain, L by assumption. reflexivity.
Qed.
(** What is missing or a directory is never shown: the response is an error. *)
Theorem C72_error : forall unquote lexer highlight f cwd media r,
  Forall plain_name r -> r <> nil -> (forall s, look f (cwd ++ r) <> Some (File s)) ->
  unquote (join (lit "/") r) = join (lit "/") r ->
  ~ In r [[lit "checkers"]; [lit "signals"]] -> hd nil r <> lit "media" ->
  exists n, respond unquote lexer highlight f cwd media (address r) = Error n /\ 400 <= n /\
    (is_source (join (lit "/") r) = false -> look f (cwd ++ r) = None -> n = 404).
Proof.
  intros unquote lexer highlight f cwd media r H N L U P M. unfold respond.
  destruct (route_address unquote r H N P M) as [b ->]. rewrite U. destruct (is_source (join (lit "/") r)) eqn:B.
  - unfold source. exists 500. split; [|split; [lia | discriminate]]. rewrite abspath_plain by assumption.
    destruct (lexer (join (lit "/") r)); [|reflexivity]. destruct (look f (cwd ++ r)) as [[|s]|] eqn:E; try reflexivity. exfalso. eapply L, eq_refl.
  - unfold static. rewrite abspath_plain, below_plain by assumption. destruct (look f (cwd ++ r)) as [[|s]|] eqn:E.
    + exists 403. split; [reflexivity | split; [lia | discriminate]].
    + exfalso. eapply L, eq_refl.
    + exists 404. split; [reflexivity | split; [lia | reflexivity]].
Qed.
(** Sources are shown from below the current directory, for decoded paths that are relative and without '..'. *)
Theorem C72_sources_partial : forall unquote lexer highlight f cwd media p s, look f cwd = Some Dir ->
  respond unquote lexer highlight f cwd media p = Highlighted s ->
  exists q, is_source p = true /\ q = unquote (skipn 1 p) /\
    (startswith q (lit "/") = false -> ~ In (lit "..") (split_c 47%N q) ->
     exists r x, inside cwd r /\ look f r = Some (File x) /\ s = highlight q x).
Proof.
  intros unquote lexer highlight f cwd media p s Dc H. unfold respond in H.
  destruct (route unquote p) as [[| | |q|b q|b q]|] eqn:R; try discriminate H.
  - unfold static in H. destruct (below _ _); [|discriminate H]. destruct (look f (abspath _ _)) as [[|x]|]; discriminate H.
  - unfold static in H. destruct (below _ _); [|discriminate H]. destruct (look f (abspath _ _)) as [[|x]|]; discriminate H.
  - assert (E : q = unquote (skipn 1 p) /\ is_source (skipn 1 p) = true).
    { unfold route in R. destruct (eqb p (lit "/")); [discriminate R|]. destruct (eqb p (lit "/checkers")); [discriminate R|].
      destruct (eqb p (lit "/signals")); [discriminate R|]. destruct (startswith p (lit "/media/")); [discriminate R|].
      destruct (startswith p (lit "/")); [|discriminate R]. cbv zeta in R. unfold is_source.
      destruct (endswith (skipn 1 p) (lit ".dm")); [split; [congruence | reflexivity]|].
      destruct (endswith (skipn 1 p) (lit ".tex")); [split; [congruence | reflexivity]|].
      destruct (endswith (skipn 1 p) (lit ".html") || endswith (skipn 1 p) (lit ".epub")); discriminate R. }
    destruct E as [E I]. exists q. split; [|split; [exact E|]].
    + unfold is_source in *. apply orb_true_iff in I as [I|I]; apply orb_true_iff; [left|right]; apply endswith_iff in I as [t I];
        apply endswith_iff; exists (firstn 1 p ++ t); rewrite <- app_assoc, <- I; now rewrite firstn_skipn.
    + intros A D. unfold source in H. destruct (lexer q); [|discriminate H].
      destruct (look f (abspath cwd q)) as [[|x]|] eqn:L; try discriminate H. injection H as <-.
      exists (abspath cwd q), x. split; [|auto].
      unfold abspath in *. rewrite A in *. revert L D. generalize (split_c 47%N q). clear -Dc. intros l.
      assert (G : forall t, ~ In (lit "..") l -> exists t', resolve (cwd ++ t) l = cwd ++ t ++ t').
      { induction l as [|y l IH]; intros t D; cbn [resolve]; [exists nil; now rewrite app_nil_r|].
        assert (D' : ~ In (lit "..") l) by (intro; apply D; now right).
        assert (Dy : y <> lit "..") by (intro; apply D; now left).
        destruct (eqb y nil || eqb y (lit ".")); [exact (IH t D')|]. rewrite (proj2 (eqb_neq _ _) Dy).
        destruct (IH (t ++ [y]) D') as [t' E]. rewrite <- app_assoc. rewrite E. exists (y :: t'). now rewrite <- app_assoc. }
      intros L D. destruct (G nil D) as [t' E]. rewrite app_nil_r in E. rewrite E in *. destruct t' as [|y t'].
      * exfalso. rewrite app_nil_l, app_nil_r in L. rewrite Dc in L. discriminate L.
      * exists (y :: t'). split; [discriminate | reflexivity].
Qed.
(** Sources of files outside of the current directory are shown: with an absolute path after the first slash, or with
    '..'. *)
Theorem C72_sources_refuted :
  ~ (forall unquote lexer highlight f cwd media p s, look f cwd = Some Dir ->
       respond unquote lexer highlight f cwd media p = Highlighted s ->
       exists q r x, inside cwd r /\ look f r = Some (File x) /\ s = highlight q x).
Proof.
  intro H.
  specialize (H (fun x => x) (fun _ => true) (fun _ s => s) [([lit "home"], Dir); ([lit "home"; lit "keys.tex"], File (lit "secret")); ([lit "home"; lit "doc"], Dir)]
    [lit "home"; lit "doc"] nil (lit "//home/keys.tex") (lit "secret") eq_refl).
  destruct H as (q & r & x & (t & N & ->) & L & _); [vm_compute; reflexivity|].
  cbn [look app] in L. apply lookup_In in L. cbn [In] in L. destruct L as [L|[L|[L|[]]]]; injection L; intros; subst; try discriminate; now apply N.
Qed.
Theorem C72_above_refuted :
  ~ (forall unquote lexer highlight f cwd media r s, look f cwd = Some Dir ->
       respond unquote lexer highlight f cwd media (lit "/../" ++ r) <> Highlighted s).
Proof.
  intro H.
  apply (H (fun x => x) (fun _ => true) (fun _ s => s) [([lit "home"], Dir); ([lit "home"; lit "keys.tex"], File (lit "secret")); ([lit "home"; lit "doc"], Dir)]
    [lit "home"; lit "doc"] nil (lit "keys.tex") (lit "secret") eq_refl). vm_compute. reflexivity.
Qed.
(** A file in a directory with the name media in the current directory is not shown. *)
Theorem C72_served_refuted :
  ~ (forall unquote lexer highlight f cwd media r s,
       Forall plain_name r -> r <> nil -> look f (cwd ++ r) = Some (File s) -> unquote (join (lit "/") r) = join (lit "/") r ->
       is_source (join (lit "/") r) = false -> ~ In r [[lit "checkers"]; [lit "signals"]] ->
       respond unquote lexer highlight f cwd media (address r) = Body s).
Proof.
  intro H.
  specialize (H (fun x => x) (fun _ => true) (fun _ s => s) [([lit "doc"], Dir); ([lit "doc"; lit "media"], Dir); ([lit "doc"; lit "media"; lit "a.png"], File (lit "image"))]
    [lit "doc"] [lit "html"; lit "media"] [lit "media"; lit "a.png"] (lit "image")).
  assert (X : Error 404 = Body (lit "image")); [|discriminate X].
  rewrite <- H; [vm_compute; reflexivity | | discriminate | reflexivity | reflexivity | reflexivity | ].
  - repeat constructor; try discriminate; intro I; vm_compute in I; firstorder discriminate.
  - intros [E|[E|[]]]; discriminate E.
Qed.
(** A source that does not exist is an error of the server instead of a missing file. *)
Theorem C72_missing_refuted :
  ~ (forall unquote lexer highlight f cwd media r,
       Forall plain_name r -> r <> nil -> look f (cwd ++ r) = None -> unquote (join (lit "/") r) = join (lit "/") r ->
       hd nil r <> lit "media" -> ~ In r [[lit "checkers"]; [lit "signals"]] ->
       respond unquote lexer highlight f cwd media (address r) = Error 404).
Proof.
  intro H. specialize (H (fun x => x) (fun _ => true) (fun _ s => s) [([lit "doc"], Dir)] [lit "doc"] nil [lit "a.dm"]).
  assert (X : Error 500 = Error 404); [|discriminate X].
  rewrite <- H; [vm_compute; reflexivity | | discriminate | reflexivity | reflexivity | discriminate | ].
  - repeat constructor; try discriminate; intro I; vm_compute in I; firstorder discriminate.
  - intros [E|[E|[]]]; discriminate E.
Qed.

(** ** Projects *)
Lemma session_some {D} (l : list D) r : session (Some l) r = map (fun _ => Ok l) r.
Proof. induction r as [|x r IH]; cbn; [reflexivity | now rewrite IH]. Qed.
(** Projects are loaded until this works for the first time, and then are the same for all further requests. *)
Theorem C72_projects : forall (D : Type) (bad : list (result (list D))) (docs : list D) (later : list (result (list D))),
  Forall (fun x => exists e, x = Raise e) bad ->
  session None (bad ++ Ok docs :: later) = bad ++ map (fun _ => Ok docs) (Ok docs :: later).
Proof.
  intros D bad docs later H. induction H as [|x bad [e ->] H IH]; cbn [app session load_projects].
  - rewrite session_some. reflexivity.
  - now rewrite IH.
Qed.
(** A request is answered with an error only if the projects cannot be loaded at its time. *)
Theorem C72_projects_error : forall (D : Type) (l : list (result (list D))) i e,
  nth_error (session None l) i = Some (Raise e) -> nth_error l i = Some (Raise e).
Proof.
  intros D l. induction l as [|x l IH]; intros i e H; [now destruct i|]. cbn [session] in H. destruct x as [docs|e']; cbn [load_projects] in H.
  - rewrite session_some in H. destruct i; cbn in H; [discriminate H|]. exfalso. apply nth_error_In in H. apply in_map_iff in H as (? & H & _). discriminate H.
  - destruct i; cbn in H |- *; [exact H | now apply IH].
Qed.
(** A project that is made while the server runs is not shown. *)
Theorem C72_projects_refuted :
  ~ (forall (D : Type) (l : list (result (list D))) i docs,
       nth_error l i = Some (Ok docs) -> nth_error (session None l) i = Some (Ok docs)).
Proof.
  intro H. specialize (H nat [Ok [1]; Ok [1; 2]] 1 [1; 2] eq_refl). discriminate H.
Qed.

(** ** The tree of documents *)
Fixpoint document_ind2 (P : document -> Prop) (F : forall t s ts l, Forall P l -> P (Doc t s ts l)) (d : document) : P d :=
  match d with
  | Doc t s ts l => F t s ts l ((fix go l : Forall P l := match l with nil => Forall_nil _ | x :: r => Forall_cons _ (document_ind2 P F x) (go r) end) l)
  end.
Lemma tree_item_unfold level n t s ts subs :
  tree_item level n (Doc t s ts subs) = Item (if Nat.eqb level 1 then 1 else n) level t s ts (tree_items (S level) 1 subs).
Proof.
  cbn [tree_item]. f_equal. generalize 1. induction subs as [|x r IH]; intro m; cbn [tree_items]; [reflexivity | now rewrite IH].
Qed.
Lemma items_length level n l : length (tree_items level n l) = length l.
Proof. revert n. induction l as [|x l IH]; intro n; cbn [tree_items length]; [reflexivity | now rewrite IH]. Qed.
Lemma items_shown level n l : (forall d m, In d l -> shown (tree_item level m d) = documents d) ->
  flat_map shown (tree_items level n l) = flat_map documents l.
Proof.
  revert n. induction l as [|x l IH]; intros n H; cbn [tree_items flat_map]; [reflexivity|].
  rewrite H by now left. f_equal. apply IH. intros d m I. apply H. now right.
Qed.
Lemma items_forall (P : item -> Prop) level n l : (forall d m, In d l -> P (tree_item level m d)) -> Forall P (tree_items level n l).
Proof.
  revert n. induction l as [|x l IH]; intros n H; cbn [tree_items]; constructor; [apply H; now left | apply IH; intros d m I; apply H; now right].
Qed.
Lemma item_shown d : forall level n, shown (tree_item level n d) = documents d.
Proof.
  induction d as [t s ts l IH] using document_ind2. intros level n. rewrite tree_item_unfold. cbn [shown documents]. f_equal.
  apply items_shown. intros d m I. rewrite Forall_forall in IH. now apply IH.
Qed.
Lemma item_level level n d : Server.level (tree_item level n d) = level.
Proof. destruct d. reflexivity. Qed.
Lemma items_number level n l : level <> 1 -> map number (tree_items level n l) = seq n (length l).
Proof.
  intro L. revert n. induction l as [|[t s ts subs] l IH]; intro n; cbn [tree_items length seq map]; [reflexivity|].
  rewrite IH, tree_item_unfold. cbn [number]. now destruct (Nat.eqb_spec level 1).
Qed.
Lemma item_numbered d : forall level n, 1 <= level -> numbered (tree_item level n d).
Proof.
  induction d as [t s ts l IH] using document_ind2. intros level n L. rewrite tree_item_unfold. constructor.
  - rewrite items_length. apply items_number. lia.
  - apply items_forall. intros d m _. apply item_level.
  - apply items_forall. intros d m I. rewrite Forall_forall in IH. apply IH; [exact I | lia].
Qed.
(** The page shows every document once with its title, source and targets, each before its sub-documents. *)
Theorem C72_tree : forall docs, flat_map shown (tree_to_dict docs) = flat_map documents docs.
Proof. intro docs. apply items_shown. intros d m _. apply item_shown. Qed.
(** The projects are at the first level with the number 1, and sub-documents one level below their document with the
    numbers from 1. *)
Theorem C72_numbers : forall docs,
  length (tree_to_dict docs) = length docs /\
  Forall (fun i => level i = 1 /\ number i = 1 /\ numbered i) (tree_to_dict docs).
Proof.
  intro docs. split; [apply items_length|]. apply items_forall. intros d m _. split; [apply item_level|]. split; [now destruct d|].
  apply item_numbered. lia.
Qed.

(** ** Dependencies *)
Fixpoint dep_ind2 (P : dep -> Prop) (D : forall n a, P (Dep n a)) (G : forall k c l, Forall P l -> P (Group k c l)) (d : dep) : P d :=
  match d with
  | Dep n a => D n a
  | Group k c l => G k c l ((fix go l : Forall P l := match l with nil => Forall_nil _ | x :: r => Forall_cons _ (dep_ind2 P D G x) (go r) end) l)
  end.
Lemma row_st required level d : row_status (checker_to_dict required level d) = status_of required d.
Proof. destruct d as [n a|[] c l]; reflexivity. Qed.
Lemma status_ok required d : status_of required d = SOk <-> available d = Some true.
Proof. unfold status_of. destruct (available d) as [[]|], required; split; congruence. Qed.
Lemma status_not required d : status_of required d <> (if required then SMissing else SFail).
Proof. unfold status_of. destruct (available d) as [[]|], required; discriminate. Qed.
Lemma is_true_iff a : is_true a = true <-> a = Some true.
Proof. destruct a as [[]|]; cbn; split; congruence. Qed.
Lemma group_row k c l required level : k <> KPlain ->
  checker_to_dict required level (Group k c l) =
  Row level (status_of required (Group k c l)) (Some c) (map (checker_to_dict (kind_required k) (S level)) l).
Proof. intro N. destruct k; try reflexivity. now contradiction N. Qed.
Lemma tells_ok d : proper d -> forall required level, tells d (checker_to_dict required level d).
Proof.
  induction d as [n a|k c l IH] using dep_ind2; intros H required level.
  - cbn [checker_to_dict]. constructor; [apply status_ok|]. unfold status_of. cbn [available]. destruct a as [[]|], required; split; congruence.
  - inversion H as [|? ? ? N F]; subst. rewrite group_row by exact N. constructor; [exact N| | | | | |].
    + rewrite status_ok. destruct k; cbn [available].
      * split.
        -- intros E r I. apply in_map_iff in I as (x & <- & I). rewrite row_st. apply status_ok. injection E as E. rewrite forallb_forall in E.
           now apply is_true_iff, E.
        -- intro E. f_equal. apply forallb_forall. intros x I. apply is_true_iff. apply (status_ok (kind_required KAll)). rewrite <- (row_st _ (S level)).
           apply E. now apply in_map.
      * split.
        -- intro E. injection E as E. apply existsb_exists in E as (x & I & E). apply is_true_iff in E.
           exists (checker_to_dict (kind_required KAny) (S level) x). split; [now apply in_map | now rewrite row_st; apply status_ok].
        -- intros (r & I & E). f_equal. apply in_map_iff in I as (x & <- & I). rewrite row_st in E. apply status_ok in E.
           apply existsb_exists. exists x. split; [exact I | now apply is_true_iff].
      * tauto.
      * now contradiction N.
    + unfold status_of. destruct k; cbn [available]; [destruct (forallb _ _), required | destruct (existsb _ _), required | | destruct required]; discriminate.
    + intros Nk r I. apply in_map_iff in I as (x & <- & I). rewrite row_st. replace (kind_required k) with false by (now destruct k).
      apply (status_not false).
    + intros -> r I. apply in_map_iff in I as (x & <- & I). rewrite row_st. apply (status_not true).
    + apply Forall_forall. intros r I. apply in_map_iff in I as (x & <- & I). now destruct x as [|[]].
    + clear H. induction l as [|x l IHl]; cbn [map]; constructor.
      * inversion IH; inversion F; subst. auto.
      * inversion IH; inversion F; subst. auto.
Qed.
(** The page of dependencies tells of each whether it was found, and of lists of them whether they are sufficient. *)
Theorem C72_checkers : forall l, Forall proper l -> Forall2 tells l (checkers_page l).
Proof.
  intros l H. unfold checkers_page. induction H as [|d l Hd H IH]; cbn [map]; constructor; [now apply tells_ok | exact IH].
Qed.

Lemma box s : length (center8 (status_text s)) = 8 /\ strip (center8 (status_text s)) = status_text s.
Proof. destruct s; vm_compute; split; reflexivity. Qed.
Lemma line_ok before n level s :
  line_for (level, s, Some n) (print_single_check (quoted before n) (status_text s) (status_spacer s) level).
Proof.
  destruct (box s) as [Bl Bs]. unfold line_for.
  exists n, before, (repeat (status_spacer s) (80 - length (repeat 32%N (2 * level) ++ quoted before n) - length (lit "[" ++ center8 (status_text s) ++ lit "]  "))), (center8 (status_text s)).
  split; [reflexivity|]. split.
  { unfold print_single_check, fill_string, quoted. rewrite <- !app_assoc. reflexivity. }
  split; [now rewrite Bs; destruct s|]. split; [exact Bl|].
  unfold print_single_check, fill_string.
  set (u := repeat 32%N (2 * level) ++ quoted before n). set (v := lit "[" ++ center8 (status_text s) ++ lit "]  ").
  rewrite !app_length, repeat_length.
  destruct (le_lt_dec (length u + length v) 80) as [L|L]; [left; lia | right; split; [lia|]].
  replace (80 - length u - length v) with 0 by lia. reflexivity.
Qed.
Lemma lines_ok d : proper d -> forall required level, Forall2 line_for (rows (checker_to_dict required level d)) (print_dependencies required level d).
Proof.
  induction d as [n a|k c l IH] using dep_ind2; intros H required level.
  - cbn [checker_to_dict rows print_dependencies flat_map]. constructor; [apply line_ok | constructor].
  - inversion H as [|? ? ? N F]; subst. rewrite group_row by exact N. cbn [rows].
    assert (G : forall b, Forall2 line_for (flat_map rows (map (checker_to_dict b (S level)) l)) (flat_map (print_dependencies b (S level)) l)).
    { intro b. clear H. induction l as [|x l IHl]; cbn [map flat_map]; [constructor|]. inversion IH; inversion F; subst. apply Forall2_app; auto. }
    destruct k; cbn [print_dependencies kind_required]; try (constructor; [apply line_ok | apply G]). now contradiction N.
Qed.
(** The lines of the command setup --check are those of the page, in the same order: the name and the status of each
    dependency, with a width of 80 if there is enough space. *)
Theorem C72_lines : forall l, Forall proper l -> Forall2 line_for (flat_map rows (checkers_page l)) (print_checkers l).
Proof.
  intros l H. unfold checkers_page, print_checkers. induction H as [|d l Hd H IH]; cbn [map flat_map]; [constructor|].
  apply Forall2_app; [now apply lines_ok | exact IH].
Qed.

(** ** An example *)
Definition ex_fs : fs :=
  [([lit "doc"], Dir); ([lit "doc"; lit "src"], Dir); ([lit "doc"; lit "src"; lit "a.dm"], File (lit "text"));
   ([lit "doc"; lit "html"], Dir); ([lit "doc"; lit "html"; lit "a.html"], File (lit "<p/>"));
   ([lit "media"], Dir); ([lit "media"; lit "css"], Dir); ([lit "media"; lit "css"; lit "a.css"], File (lit "p {}"))].
Definition ex_ask (p : str) : response := respond (fun x => x) (fun _ => true) (fun _ s => lit "<pre>" ++ s) ex_fs [lit "doc"] [lit "media"] p.
Definition ex_deps : list dep :=
  [Group KAll (lit "pdf") [Group KAny (lit "executables") [Dep (lit "pdflatex") (Some true); Dep (lit "xelatex") (Some false)];
                           Dep (lit "geometry") (Some false); Dep (lit "fourier") None]].
Example C72_ex :
  ex_ask (address [lit "html"; lit "a.html"]) = Body (lit "<p/>") /\
  ex_ask (address [lit "src"; lit "a.dm"]) = Highlighted (lit "<pre>text") /\
  ex_ask (lit "/media" ++ address [lit "css"; lit "a.css"]) = Body (lit "p {}") /\
  ex_ask (lit "/../media/css/a.css") = Error 403 /\ ex_ask (lit "/html/b.html") = Error 404 /\
  Forall plain_name [lit "html"; lit "a.html"] /\
  tree_to_dict [Doc (lit "A") (lit "a.dm") [(lit ".html", lit "a.html")] [Doc (lit "B") (lit "b.dm") nil nil; Doc (lit "C") (lit "c.dm") nil nil]] =
    [Item 1 1 (lit "A") (lit "a.dm") [(lit ".html", lit "a.html")] [Item 1 2 (lit "B") (lit "b.dm") nil nil; Item 2 2 (lit "C") (lit "c.dm") nil nil]] /\
  Forall proper ex_deps /\
  flat_map rows (checkers_page ex_deps) =
    [(1, SFail, Some (lit "pdf")); (2, SOk, Some (lit "executables")); (3, SOk, Some (lit "pdflatex")); (3, SMissing, Some (lit "xelatex"));
     (2, SFail, Some (lit "geometry")); (2, SUnknown, Some (lit "fourier"))] /\
  nth 3 (print_checkers ex_deps) nil =
    lit "      Checking dependency 'xelatex'                                 [MISSING ]  ".
Proof.
  split; [vm_compute; reflexivity|]. split; [vm_compute; reflexivity|]. split; [vm_compute; reflexivity|].
  split; [vm_compute; reflexivity|]. split; [vm_compute; reflexivity|].
  split. { repeat constructor; try discriminate; intro I; vm_compute in I; firstorder discriminate. }
  split; [vm_compute; reflexivity|].
  split. { repeat (constructor; try discriminate). }
  split; vm_compute; reflexivity.
Qed.

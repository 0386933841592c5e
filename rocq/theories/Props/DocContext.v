(** C62: targets, included documents and the context of a document after a reset *)
From Coq Require Import String List Bool Arith NArith ZArith Lia Permutation.
From Verif.Base Require Import Str StrFacts Dict DictFacts Result PurePath.
From Verif.Model Require Import StringUtils ListUtils Paths Context DocContext.
From Verif.Spec Require Import Context DocContext.
From Verif.Proof Require Import Attributes ListUtils Context.
From Verif.Props Require Context.
Import ListNotations.

Lemma map_result_texts l : map_result as_text (map (fun n => VS (SStr n)) l) = Ok l.
Proof. induction l as [|x l IH]; [reflexivity|]. cbn [map map_result as_text bind]. rewrite IH. reflexivity. Qed.
Lemma holds_texts h l ns P : holds_all h l (map (fun n => TS (SStr n)) ns) P -> l = map (fun n => VS (SStr n)) ns.
Proof.
  revert l P. induction ns as [|n ns IH]; intros l P H; cbn [map] in *; inversion H as [|v t P' l' ts Q Hv Hl]; subst; [reflexivity|].
  inversion Hv; subst. f_equal. eauto.
Qed.
Lemma entry_of_eq h a d F : holds h (VRef a) (TDict d) F -> exists vd, get_dict h a = Ok vd /\
  forall k, exists P, holds_entry h (lookup k vd) (lookup k d) P.
Proof.
  intros H. destruct (dict_inv _ _ _ _ H) as (vd & Ps & D & _). exists vd. unfold get_dict. rewrite (dr_cell _ _ _ _ _ D).
  split; [reflexivity|]. intros k. exists (Ps k). apply (dr_entry _ _ _ _ _ D).
Qed.
Lemma entry_cases h o t P : holds_entry h o t P -> (o = None /\ t = None) \/ exists v u, o = Some v /\ t = Some u /\ holds h v u P.
Proof. intros H. inversion H; subst; [left; auto|right; eauto]. Qed.
Lemma to_list_total h v t Q ts : holds h v t Q -> items_of t = Some ts -> exists items P, to_list h v = Ok items /\ holds_all h items ts P.
Proof.
  intros H E. assert (X : exists items, to_list h v = Ok items).
  { inversion H; subst; cbn in E |- *; try discriminate; try (match goal with X : nth_error _ _ = _ |- _ => rewrite X end; eauto).
    destruct s; try discriminate. eauto. }
  destruct X as [items Ei]. destruct (to_list_spec _ _ _ _ _ H Ei) as (ts' & Q' & E1 & E2 & _).
  replace ts with ts' by congruence. eauto.
Qed.
Lemma none_In ns : existsb (eqb_val (VS (SStr (lit "none")))) (map (fun n => VS (SStr n)) ns) = mem (lit "none") ns.
Proof. induction ns as [|n ns IH]; [reflexivity|]. cbn [map existsb mem]. unfold mem in IH. rewrite IH. reflexivity. Qed.

Lemma targets_eq h x d F names : holds h (VRef x) (TDict d) F -> written (entry_of [lit "target"; lit "targets"] d) names ->
  targets h x = Ok (if mem (lit "none") names then nil else uniq (map with_period (filter (fun t => negb (eqb t nil)) names))).
Proof.
  intros H W. destruct (entry_of_eq _ _ _ _ H) as (vd & Ed & He). unfold targets. rewrite Ed. cbn [bind].
  assert (X : (names = nil /\ targets_entry vd = VS (SStr nil)) \/ to_list h (targets_entry vd) = Ok (map (fun n => VS (SStr n)) names)).
  { unfold targets_entry. unfold written, entry_of in W. cbn [fold_right] in W.
    destruct (He (lit "target")) as (P1 & H1). destruct (entry_cases _ _ _ _ H1) as [[E1 E2]|(v & u & E1 & E2 & Hv)]; rewrite E1; rewrite E2 in W.
    - destruct (He (lit "targets")) as (P2 & H2). destruct (entry_cases _ _ _ _ H2) as [[E4 E5]|(v & u & E4 & E5 & Hv)]; rewrite E4; rewrite E5 in W.
      + left. auto.
      + right. destruct (to_list_total _ _ _ _ _ Hv W) as (it & Q & T1 & T2). rewrite T1. apply holds_texts in T2. now subst.
    - right. destruct (to_list_total _ _ _ _ _ Hv W) as (it & Q & T1 & T2). rewrite T1. apply holds_texts in T2. now subst. }
  destruct X as [[-> ->]|Et]; [reflexivity|]. rewrite Et. cbn [bind]. rewrite none_In. destruct (mem _ names); [reflexivity|]. rewrite map_result_texts. reflexivity.
Qed.
Lemma with_period_iff n e : with_period n = e <-> extension_for n e.
Proof.
  unfold with_period, extension_for. destruct (startswith n (lit ".")) eqn:E.
  - apply startswith_iff in E. destruct E as [r E]. split.
    + intros <-. left. exists r. auto.
    + intros [(r' & _ & ->)|[X _]]; [reflexivity|]. exfalso. exact (X r E).
  - assert (X : forall r, n <> lit "." ++ r). { intros r ->. assert (T : startswith (lit "." ++ r) (lit ".") = true) by (apply startswith_iff; eauto). congruence. }
    split; [intros <-; right; auto|]. intros [(r & -> & _)|[_ ->]]; [exfalso; exact (X r eq_refl)|reflexivity].
Qed.

(** The targets of a document are exactly the extensions for the names that are written in the entry
    'target' or, without it, in 'targets'; every one once; none if one of the names is 'none'. *)
Theorem C62_targets : forall h x d F names,
  holds h (VRef x) (TDict d) F -> written (entry_of [lit "target"; lit "targets"] d) names ->
  exists l, targets h x = Ok l /\ NoDup l /\
    (In (lit "none") names -> l = nil) /\
    (~ In (lit "none") names -> forall e, In e l <-> exists n, In n names /\ n <> nil /\ extension_for n e).
Proof.
  intros h x d F names H W. rewrite (targets_eq _ _ _ _ _ H W). eexists. split; [reflexivity|].
  destruct (mem (lit "none") names) eqn:E.
  - apply mem_In in E. split; [constructor|]. split; [reflexivity|]. intros N. contradiction.
  - apply mem_not_In in E. split; [apply uniq_NoDup|]. split; [intros; contradiction|]. intros _ e. rewrite uniq_In, in_map_iff. split.
    + intros (n & Hn & Hi). apply filter_In in Hi. destruct Hi as [Hi He]. exists n. split; [exact Hi|]. split; [|apply with_period_iff, Hn].
      intros ->. rewrite eqb_refl in He. discriminate.
    + intros (n & Hi & Hn & He). exists n. split; [apply with_period_iff, He|]. apply filter_In. split; [exact Hi|].
      destruct (eqb_spec n nil); [contradiction|reflexivity].
Qed.

(** So every target starts with a period. *)
Theorem C62_periods : forall h x d F names l,
  holds h (VRef x) (TDict d) F -> written (entry_of [lit "target"; lit "targets"] d) names -> targets h x = Ok l ->
  forall e, In e l -> exists r, e = lit "." ++ r.
Proof.
  intros h x d F names l H W E e He. destruct (C62_targets _ _ _ _ _ H W) as (l' & E' & _ & Hn & Hl). rewrite E in E'. injection E' as <-.
  destruct (in_dec (list_eq_dec N.eq_dec) (lit "none") names) as [X|X].
  - rewrite (Hn X) in He. destruct He.
  - apply (Hl X) in He. destruct He as (n & _ & _ & [(r & E1 & ->)|[_ ->]]); eauto.
Qed.

Lemma filter_something lines : filter (fun l => negb (blank l)) lines = filter something lines.
Proof.
  induction lines as [|l r IH]; [reflexivity|]. cbn [filter]. rewrite IH.
  assert (E : negb (blank l) = something l). { unfold blank, something. clear. induction l as [|c l IH]; [reflexivity|]. cbn. rewrite negb_andb. now rewrite IH. }
  rewrite E. reflexivity.
Qed.
Lemma map_result_ok {A B} (f : A -> result B) g l : (forall x, In x l -> f x = Ok (g x)) -> map_result f l = Ok (map g l).
Proof. induction l as [|x l IH]; intros H; [reflexivity|]. cbn. rewrite H by now left. cbn. rewrite IH by (intros; apply H; now right). reflexivity. Qed.
Lemma map_result_raise {A B} (f : A -> result B) e l x : In x l -> f x = Raise e -> (forall y, In y l -> f y = Raise e \/ exists z, f y = Ok z) -> map_result f l = Raise e.
Proof.
  induction l as [|y l IH]; intros Hi Hx Ha; [destruct Hi|]. cbn. destruct (Ha y (or_introl eq_refl)) as [E|[z E]]; rewrite E; [reflexivity|]. cbn.
  destruct Hi as [->|Hi]; [congruence|]. rewrite IH; auto. intros; apply Ha; now right.
Qed.

Lemma includes_entry_eq h vd d text : (forall k, exists P, holds_entry h (lookup k vd) (lookup k d) P) ->
  entry_of [lit "include"; lit "includes"] d = Some (TS (SStr text)) -> includes_entry vd = Some (VS (SStr text)).
Proof.
  intros He W. unfold includes_entry. unfold entry_of in W. cbn [fold_right] in W.
  destruct (He (lit "include")) as (P1 & H1). destruct (entry_cases _ _ _ _ H1) as [[E1 E2]|(v & u & E1 & E2 & Hv)]; rewrite E1; rewrite E2 in W.
  - destruct (He (lit "includes")) as (P2 & H2). destruct (entry_cases _ _ _ _ H2) as [[E4 E5]|(v & u & E4 & E5 & Hv)]; rewrite E4; rewrite E5 in W; [discriminate|].
    injection W as ->. inversion Hv. reflexivity.
  - injection W as ->. inversion Hv. reflexivity. 
Qed.

(** The included documents are exactly the lines of the entry 'include' or, without it, 'includes' that
    have something in them, in their order, without spaces around them, relative to the directory of
    the document. *)
Theorem C62_includes : forall h x d F root sub text lines,
  holds h (VRef x) (TDict d) F -> entry_of [lit "include"; lit "includes"] d = Some (TS (SStr text)) ->
  text = join [10%N] lines -> lines <> nil -> (forall l, In l lines -> ~ In 10%N l) ->
  (forall l, In l lines -> something l = true -> absolute (of_str (strip l)) = false) -> absolute sub = false ->
  includes h x root sub =
    Ok (map (fun l => Source root (path_join (path_parent sub) (of_str (strip l)))) (filter something lines)).
Proof.
  intros h x d F root sub text lines H W Et Hn Hl Ha Hs. destruct (entry_of_eq _ _ _ _ H) as (vd & Ed & He). unfold includes. rewrite Ed. cbn [bind].
  rewrite (includes_entry_eq _ _ _ _ He W). replace (split_c 10%N text) with lines.
  - rewrite filter_something, <- (map_map strip (fun l => Source root (path_join (path_parent sub) (of_str l)))).
    apply map_result_ok. intros l Hi. apply in_map_iff in Hi. destruct Hi as (l0 & <- & Hi). apply filter_In in Hi. destruct Hi as [Hi Hv].
    unfold source_path, path_join. rewrite (Ha _ Hi Hv). cbn [absolute path_parent]. rewrite Hs. reflexivity.
  - subst text. symmetry. apply split_c_join; assumption.
Qed.

Lemma source_path_cases root sub p : absolute sub = false ->
  source_path root (path_join (path_parent sub) p) = if absolute p then Raise AssertionError else Ok (Source root (path_join (path_parent sub) p)).
Proof. intros Hs. unfold source_path, path_join. destruct (absolute p) eqn:E; [rewrite E; reflexivity|]. cbn [absolute path_parent]. rewrite Hs. reflexivity. Qed.

(** A line with an absolute path is an error, whatever the other lines are. *)
Theorem C62_absolute : forall h x d F root sub text lines l,
  holds h (VRef x) (TDict d) F -> entry_of [lit "include"; lit "includes"] d = Some (TS (SStr text)) ->
  text = join [10%N] lines -> (forall l, In l lines -> ~ In 10%N l) -> absolute sub = false ->
  In l lines -> something l = true -> absolute (of_str (strip l)) = true ->
  includes h x root sub = Raise AssertionError.
Proof.
  intros h x d F root sub text lines l H W Et Hl Hs Hi Hv Ha. destruct (entry_of_eq _ _ _ _ H) as (vd & Ed & He). unfold includes. rewrite Ed. cbn [bind].
  rewrite (includes_entry_eq _ _ _ _ He W). replace (split_c 10%N text) with lines.
  - rewrite filter_something. apply (map_result_raise _ _ _ (strip l)).
    + apply in_map. apply filter_In. auto.
    + rewrite source_path_cases by exact Hs. rewrite Ha. reflexivity.
    + intros y _. rewrite source_path_cases by exact Hs. destruct (absolute (of_str y)); eauto.
  - subst text. symmetry. apply split_c_join; [|exact Hl]. intros ->. destruct Hi.
Qed.

(** Without an entry, or with an entry that is no text, nothing is included. *)
Theorem C62_no_includes : forall h x d F root sub,
  holds h (VRef x) (TDict d) F -> (forall s, entry_of [lit "include"; lit "includes"] d <> Some (TS (SStr s))) ->
  includes h x root sub = Ok nil.
Proof.
  intros h x d F root sub H W. destruct (entry_of_eq _ _ _ _ H) as (vd & Ed & He). unfold includes. rewrite Ed. cbn [bind].
  assert (X : forall s, includes_entry vd <> Some (VS (SStr s))).
  { intros s. unfold includes_entry. unfold entry_of in W. cbn [fold_right] in W.
    destruct (He (lit "include")) as (P1 & H1). destruct (entry_cases _ _ _ _ H1) as [[E1 E2]|(v & u & E1 & E2 & Hv)]; rewrite E1; rewrite E2 in W.
    - destruct (He (lit "includes")) as (P2 & H2). destruct (entry_cases _ _ _ _ H2) as [[E4 E5]|(v & u & E4 & E5 & Hv)]; rewrite E4; rewrite E5 in W; [discriminate|].
      intros [= ->]. inversion Hv; subst. exact (W s eq_refl).
    - intros [= ->]. inversion Hv; subst. exact (W s eq_refl). }
  destruct (includes_entry vd) as [[[s| | | |]|]|]; try reflexivity. exfalso. exact (X s eq_refl).
Qed.

(** ** Reset *)
Lemma set_entry_rep h a d td Ps k s : dictrep h a d td Ps ->
  exists h', set_entry h a k (VS s) = Ok h' /\ dictrep h' a (set k (VS s) d) (set k (TS s) td) (fun k' => if eqb k' k then (fun _ => False) else Ps k').
Proof.
  intros D. exists (upd h a (CDict (set k (VS s) d))). split; [|apply set_scalar_rep, D].
  unfold set_entry, get_dict. rewrite (dr_cell _ _ _ _ _ D). reflexivity.
Qed.
Lemma get_entry_given h a d td Ps k : dictrep h a d td Ps -> (match get_entry k d with Some _ => true | None => false end) = given (lookup k td).
Proof.
  intros D. unfold get_entry. pose proof (dr_entry _ _ _ _ _ D k) as H. destruct (entry_cases _ _ _ _ H) as [[E1 E2]|(v & u & E1 & E2 & Hv)]; rewrite E1, E2; [reflexivity|].
  inversion Hv; subst; try reflexivity. cbn [eqb_val]. destruct s as [| | | |ty n]; try reflexivity. unfold SNone. cbn [eqb_scalar]. destruct ty, n; reflexivity.
Qed.
Lemma get_entry_text h a d td Ps k s : dictrep h a d td Ps -> lookup k td = Some (TS (SStr s)) -> get_entry k d = Some (VS (SStr s)).
Proof.
  intros D Et. unfold get_entry. pose proof (dr_entry _ _ _ _ _ D k) as H. destruct (entry_cases _ _ _ _ H) as [[E1 E2]|(v & u & E1 & E2 & Hv)]; rewrite E1; [congruence|].
  rewrite Et in E2. injection E2 as <-. inversion Hv; subst. reflexivity.
Qed.
Lemma level_eq h a d td Ps z : dictrep h a d td Ps -> next_level d = Ok z ->
  (lookup (lit "level") td = None /\ z = 1%Z) \/ (exists n, lookup (lit "level") td = Some (TS (SInt n)) /\ z = (n + 1)%Z).
Proof.
  intros D E. unfold next_level in E. pose proof (dr_entry _ _ _ _ _ D (lit "level")) as H.
  destruct (entry_cases _ _ _ _ H) as [[E1 E2]|(v & u & E1 & E2 & Hv)]; rewrite E1 in E; rewrite E2; [injection E as <-; auto|].
  destruct v as [[s|n|b|f|ty n]|]; try discriminate E. injection E as <-. inversion Hv; subst. right. eauto.
Qed.
Lemma paths_rep path_value doc h a d td Ps h' : dictrep h a d td Ps ->
  (exists s, lookup (lit "project_root") td = Some (TS s)) ->
  reset_paths path_value doc a h = Ok h' ->
  exists d' Ps' s, dictrep h' a d' (set (lit "paths") (TList (map TS (let l := path_value (Source (src_root doc) (path_parent (src_sub doc))) in if eqb_scalar s l then [l] else [l; s]))) td) Ps' /\
    lookup (lit "project_root") td = Some (TS s) /\ absolute (src_sub doc) = false.
Proof.
  intros D (s & Es) E. unfold reset_paths in E. unfold get_dict at 1 in E. rewrite (dr_cell _ _ _ _ _ D) in E. cbn [bind] in E.
  assert (Ls : a < List.length h) by (eapply nth_lt; apply (dr_cell _ _ _ _ _ D)).
  set (local := Source (src_root doc) (path_parent (src_sub doc))) in *.
  set (l := if eqb_scalar s (path_value local) then [path_value local] else [path_value local; s]).
  pose proof (dr_entry _ _ _ _ _ D (lit "project_root")) as Hr. destruct (entry_cases _ _ _ _ Hr) as [[E1 E2]|(v & u & E1 & E2 & Hv)]; [congruence|].
  rewrite Es in E2. injection E2 as <-. assert (v = VS s) as -> by (inversion Hv; reflexivity). clear Hv.
  assert (Hh : forall g b, nth_error g b = Some (CList (map VS l)) -> exists Q, holds g (VRef b) (TList (map TS l)) Q /\ forall x, Q x -> x = b).
  { intros g b Hg. destruct (all_scalars g l) as (P & H1 & H2). exists (fun x => x = b \/ P x). split; [econstructor; eauto|]. intros x [Hx|Hx]; [exact Hx|]. exfalso. exact (H2 x Hx). }
  assert (Hl : (if existsb (eqb_val (VS s)) [VS (path_value local)] then [VS (path_value local)] else [VS (path_value local)] ++ [VS s]) = map VS l).
  { unfold l. cbn [existsb eqb_val orb]. rewrite orb_false_r. destruct (eqb_scalar s (path_value local)); reflexivity. }
  pose proof (dr_entry _ _ _ _ _ D (lit "paths")) as Hp. destruct (entry_cases _ _ _ _ Hp) as [[P1 P2]|(v & u & P1 & P2 & Hv)]; rewrite P1 in E.
  - unfold alloc, set_entry in E. unfold get_dict at 1 in E. rewrite alloc_old in E by exact Ls. rewrite (dr_cell _ _ _ _ _ D) in E. cbn [bind] in E.
    set (h1 := upd (h ++ [CList nil]) a (CDict (set (lit "paths") (VRef (List.length h)) d))) in *.
    destruct (source_path (src_root doc) (path_parent (src_sub doc))) as [loc|] eqn:El; [|discriminate E]. cbn [bind] in E.
    assert (Hloc : loc = local /\ absolute (src_sub doc) = false).
    { unfold source_path in El. cbn [absolute path_parent] in El. destruct (absolute (src_sub doc)); [discriminate El|]. injection El as <-. auto. }
    destruct Hloc as [-> Habs].
    unfold get_dict in E. unfold h1 in E at 1. rewrite upd_same in E by (rewrite app1_length; lia). cbn [bind] in E.
    rewrite lookup_set_neq in E by discriminate. rewrite E1 in E. rewrite Hl in E. injection E as <-.
    set (h2 := upd h1 (List.length h) (CList (map VS l))).
    destruct (Hh h2 (List.length h)) as (Q & HQ & Qi). { apply upd_same. unfold h1. rewrite upd_length, app1_length. lia. }
    assert (Hold : forall x, x < List.length h -> x <> a -> nth_error h2 x = nth_error h x).
    { intros x Hx Hn. unfold h2, h1. rewrite upd_other by lia. rewrite upd_other by exact Hn. apply alloc_old, Hx. }
    exists (set (lit "paths") (VRef (List.length h)) d). eexists. exists s. split; [|split; [exact Es|exact Habs]].
    apply (dictrep_upd h h2 a d td Ps (lit "paths") _ _ Q D).
    + unfold h2, h1. rewrite upd_other by lia. apply upd_same. rewrite app1_length. lia.
    + intros k' x _ Hx. apply Hold; [exact (bound_entry _ _ _ _ _ (dr_entry _ _ _ _ _ D k') Hx)|]. intros ->. exact (dr_self _ _ _ _ _ D k' Hx).
    + exact HQ.
    + intros Hq. apply Qi in Hq. lia.
    + intros k' x _ Hq Hx. apply Qi in Hq. pose proof (bound_entry _ _ _ _ _ (dr_entry _ _ _ _ _ D k') Hx). lia.
  - destruct v as [|b]; [discriminate E|]. destruct (nth_error h b) as [[l0| | |]|] eqn:Eb; try discriminate E. cbn [bind] in E.
    destruct (source_path (src_root doc) (path_parent (src_sub doc))) as [loc|] eqn:El; [|discriminate E]. cbn [bind] in E.
    assert (Hloc : loc = local /\ absolute (src_sub doc) = false).
    { unfold source_path in El. cbn [absolute path_parent] in El. destruct (absolute (src_sub doc)); [discriminate El|]. injection El as <-. auto. }
    destruct Hloc as [-> Habs].
    destruct (list_inv _ _ _ _ _ Hv Eb) as (ts & Q0 & -> & _ & _ & Hb). pose proof (Hb b (or_introl eq_refl)) as Pb.
    assert (Nb : b <> a). { intros ->. exact (dr_self _ _ _ _ _ D _ Pb). }
    unfold get_dict in E. rewrite upd_other in E by congruence. rewrite (dr_cell _ _ _ _ _ D) in E. cbn [bind] in E. rewrite E1, Hl in E. injection E as <-.
    set (h2 := upd (upd h b (CList nil)) b (CList (map VS l))).
    destruct (Hh h2 b) as (Q & HQ & Qi). { apply upd_same. rewrite upd_length. exact (nth_lt _ _ _ Eb). }
    exists d. eexists. exists s. split; [|split; [exact Es|exact Habs]].
    apply (place_rep h h2 a d td Ps (lit "paths") (VRef b) _ Q D P1 HQ).
    + unfold h2. rewrite !upd_length. lia.
    + intros x _ Hx. unfold h2. rewrite !upd_other; [reflexivity| |]; intros ->; exact (Hx Pb).
    + intros x Hx. left. rewrite (Qi x Hx). exact Pb.
Qed.

Lemma entry_scalar to_int to_float lower (rp : bool) o v r : Entry to_int to_float lower rp true o v r ->
  (forall t, o = Some t -> is_scalar t) -> (forall t, v = Some t -> is_scalar t) -> forall t, r = Some t -> is_scalar t.
Proof.
  intros H Ho Hv t ->. inversion H; subst; auto.
  - destruct (Ho _ eq_refl) as [so ->].
    match goal with X : Updated _ _ _ _ _ _ |- _ => destruct rp; cbn [cleared] in X; inversion X; subst; eexists; reflexivity end.
Qed.

(** After a reset of the context of a document, with whatever entries before: its entries are those of
    C25 (inherited from the parent, with the initial values), except that
    - the source file, the id and the time of the file are those of the document,
    - the root document is the inherited one, or the document itself if there is none,
    - the level is one more than the inherited one, or 1,
    - the paths are the directory of the document and the root of the project, once each. *)
Theorem C62_reset : forall to_int to_float lower order path_value str_of_value lm, (forall l, Permutation (order l) l) ->
  forall x doc h h' d dp di F G I,
  holds h (VRef (self x)) (TDict d) F -> holds_parent h (parent x) dp G -> holds h (VRef (initial x)) (TDict di) I ->
  apart F G -> apart F I -> apart G I ->
  (forall t, lookup (lit "project_root") dp = Some t -> is_scalar t) -> (forall t, lookup (lit "project_root") di = Some t -> is_scalar t) ->
  reset_document to_int to_float lower order path_value str_of_value lm x doc h = Ok h' ->
  exists d1 d' F', holds h' (VRef (self x)) (TDict d') F' /\
    (forall k, after_reset to_int to_float lower DocumentContext d dp di k (lookup k d1)) /\
    lookup (lit "src_filepath") d' = Some (TS (path_value (Source (src_root doc) (src_sub doc)))) /\
    (given (lookup (lit "doc_id") d1) = false -> lookup (lit "doc_id") d' = Some (TS (SStr (doc_id doc)))) /\
    (forall s, lookup (lit "doc_id") d1 = Some (TS (SStr s)) -> lookup (lit "doc_id") d' = Some (TS (SStr s))) /\
    lookup (lit "mtime") d' = match doc_mtime doc with Some t => Some (TS (SFloat t)) | None => lookup (lit "mtime") d1 end /\
    lookup (lit "root_document") d' = (if given (lookup (lit "root_document") d1) then lookup (lit "root_document") d1 else Some (TS (doc_ref doc))) /\
    lookup (lit "is_root_document") d' = Some (TS (SBool (negb (given (lookup (lit "root_document") d1))))) /\
    lookup (lit "label_manager") d' = (if given (lookup (lit "label_manager") d1) then lookup (lit "label_manager") d1 else Some (TS lm)) /\
    ((lookup (lit "level") d1 = None /\ lookup (lit "level") d' = Some (TS (SInt 1))) \/
     (exists n, lookup (lit "level") d1 = Some (TS (SInt n)) /\ lookup (lit "level") d' = Some (TS (SInt (n + 1))))) /\
    (exists r, lookup (lit "project_root") d1 = Some (TS r) /\ lookup (lit "paths") d' = Some (TList (map TS
       (let here := path_value (Source (src_root doc) (path_parent (src_sub doc))) in if eqb_scalar r here then [here] else [here; r])))) /\
    (forall k, ~ In k [lit "src_filepath"; lit "doc_id"; lit "mtime"; lit "root_document"; lit "is_root_document"; lit "label_manager"; lit "level"; lit "paths"] ->
       lookup k d' = lookup k d1).
Proof.
  intros to_int to_float lower order pv sv lm Ho x doc h h' d dp di F G I0 HF HG HI A1 A2 A3 Sp Si E. unfold reset_document in E.
  destruct (reset to_int to_float lower order DocumentContext x h) as [g0|] eqn:E0; [|discriminate E]. cbn [bind] in E.
  destruct (reset_spec to_int to_float lower order Ho _ _ _ _ _ _ _ _ _ _ HF HG HI A1 A2 A3 E0) as (d1 & F1 & R1 & R2 & _).
  destruct (dict_inv _ _ _ _ R1) as (v0 & P0 & D0 & _). exists d1.
  destruct (set_entry_rep _ _ _ _ _ (lit "src_filepath") (pv (Source (src_root doc) (src_sub doc))) D0) as (g1 & X1 & D1). rewrite X1 in E. cbn [bind] in E.
  unfold get_dict at 1 in E. rewrite (dr_cell _ _ _ _ _ D1) in E. cbn [bind] in E.
  match type of E with context [doc_id_value sv doc ?z] => remember (doc_id_value sv doc z) as did eqn:Edid end.
  assert (Hdid : (given (lookup (lit "doc_id") d1) = false -> did = doc_id doc) /\ (forall s, lookup (lit "doc_id") d1 = Some (TS (SStr s)) -> did = s)).
  { split.
    - intros Hg. rewrite Edid. unfold doc_id_value. pose proof (get_entry_given _ _ _ _ _ (lit "doc_id") D1) as Hge. rewrite lookup_set_neq in Hge by discriminate. rewrite Hg in Hge.
      destruct (get_entry (lit "doc_id") _); [discriminate Hge|reflexivity].
    - intros s Hs. rewrite Edid. unfold doc_id_value. rewrite (get_entry_text _ _ _ _ _ (lit "doc_id") s D1); [reflexivity|]. rewrite lookup_set_neq by discriminate. exact Hs. }
  clear Edid. destruct (set_entry_rep _ _ _ _ _ (lit "doc_id") (SStr did) D1) as (g2 & X2 & D2). rewrite X2 in E. cbn [bind] in E.
  assert (X3 : exists v3 t3 P3 g3, (match doc_mtime doc with Some t => set_entry g2 (self x) (lit "mtime") (VS (SFloat t)) | None => Ok g2 end) = Ok g3 /\ dictrep g3 (self x) v3 t3 P3 /\
    forall k, lookup k t3 = if eqb k (lit "mtime") then match doc_mtime doc with Some t => Some (TS (SFloat t)) | None => lookup k d1 end else
      lookup k (set (lit "doc_id") (TS (SStr did)) (set (lit "src_filepath") (TS (pv (Source (src_root doc) (src_sub doc)))) d1))).
  { destruct (doc_mtime doc) as [t|].
    - destruct (set_entry_rep _ _ _ _ _ (lit "mtime") (SFloat t) D2) as (g3 & X3 & D3). do 4 eexists. split; [exact X3|]. split; [exact D3|].
      intros k. rewrite lookup_set. reflexivity.
    - do 4 eexists. split; [reflexivity|]. split; [exact D2|]. intros k. destruct (eqb_spec k (lit "mtime")) as [->|]; [|reflexivity]. now rewrite !lookup_set_neq by discriminate. }
  destruct X3 as (v3 & t3 & P3 & g3 & X3 & D3 & L3). rewrite X3 in E. cbn [bind] in E. clear X3 D0 X1 D1 X2 D2 R1 E0.
  unfold get_dict at 1 in E. rewrite (dr_cell _ _ _ _ _ D3) in E. cbn [bind] in E.
  assert (K3 : forall k, ~ In k [lit "src_filepath"; lit "doc_id"; lit "mtime"] -> lookup k t3 = lookup k d1).
  { intros k Hk. rewrite L3, !lookup_set. destruct (eqb_spec k (lit "mtime")) as [->|]; [exfalso; apply Hk; cbn [In]; auto|].
    destruct (eqb_spec k (lit "doc_id")) as [->|]; [exfalso; apply Hk; cbn [In]; auto|].
    destruct (eqb_spec k (lit "src_filepath")) as [->|]; [exfalso; apply Hk; cbn [In]; auto|]. reflexivity. }
  assert (Nin : forall (k a b c : str), eqb k a = false -> eqb k b = false -> eqb k c = false -> ~ In k [a; b; c]).
  { intros k a b c Ha Hb Hc [->|[->|[->|[]]]]; rewrite eqb_refl in *; discriminate. }
  pose proof (get_entry_given _ _ _ _ _ (lit "root_document") D3) as Gr. rewrite K3 in Gr by (apply Nin; reflexivity).
  assert (X4 : exists v4 t4 P4 g4, (match get_entry (lit "root_document") v3 with
      | Some _ => set_entry g3 (self x) (lit "is_root_document") (VS (SBool false))
      | None => do h0 <- set_entry g3 (self x) (lit "root_document") (VS (doc_ref doc)); set_entry h0 (self x) (lit "is_root_document") (VS (SBool true)) end) = Ok g4 /\ dictrep g4 (self x) v4 t4 P4 /\
    forall k, lookup k t4 = if eqb k (lit "is_root_document") then Some (TS (SBool (negb (given (lookup (lit "root_document") d1))))) else
      if eqb k (lit "root_document") then (if given (lookup (lit "root_document") d1) then lookup (lit "root_document") d1 else Some (TS (doc_ref doc))) else lookup k t3).
  { destruct (get_entry (lit "root_document") v3) as [rv|]; rewrite <- Gr.
    - destruct (set_entry_rep _ _ _ _ _ (lit "is_root_document") (SBool false) D3) as (g4 & X4 & D4). do 4 eexists. split; [exact X4|]. split; [exact D4|].
      intros k. rewrite lookup_set. destruct (eqb k (lit "is_root_document")); [reflexivity|]. destruct (eqb_spec k (lit "root_document")) as [->|]; [|reflexivity]. apply K3, Nin; reflexivity.
    - destruct (set_entry_rep _ _ _ _ _ (lit "root_document") (doc_ref doc) D3) as (g4 & X4 & D4). rewrite X4. cbn [bind].
      destruct (set_entry_rep _ _ _ _ _ (lit "is_root_document") (SBool true) D4) as (g5 & X5 & D5). do 4 eexists. split; [exact X5|]. split; [exact D5|].
      intros k. rewrite !lookup_set. reflexivity. }
  destruct X4 as (v4 & t4 & P4 & g4 & X4 & D4 & L4). rewrite X4 in E. cbn [bind] in E. clear X4 D3 Gr.
  unfold get_dict at 1 in E. rewrite (dr_cell _ _ _ _ _ D4) in E. cbn [bind] in E.
  pose proof (get_entry_given _ _ _ _ _ (lit "label_manager") D4) as Gm. rewrite L4 in Gm. cbn [eqb] in Gm. change (eqb (lit "label_manager") (lit "is_root_document")) with false in Gm.
  change (eqb (lit "label_manager") (lit "root_document")) with false in Gm. cbv iota in Gm. rewrite K3 in Gm by (apply Nin; reflexivity).
  assert (X5 : exists v5 t5 P5 g5, (match get_entry (lit "label_manager") v4 with
      | Some _ => Ok g4 | None => set_entry g4 (self x) (lit "label_manager") (VS lm) end) = Ok g5 /\ dictrep g5 (self x) v5 t5 P5 /\
    forall k, lookup k t5 = if eqb k (lit "label_manager") then (if given (lookup (lit "label_manager") d1) then lookup (lit "label_manager") d1 else Some (TS lm)) else lookup k t4).
  { destruct (get_entry (lit "label_manager") v4) as [rv|]; rewrite <- Gm.
    - do 4 eexists. split; [reflexivity|]. split; [exact D4|]. intros k. destruct (eqb_spec k (lit "label_manager")) as [->|]; [|reflexivity]. rewrite L4. apply K3, Nin; reflexivity.
    - destruct (set_entry_rep _ _ _ _ _ (lit "label_manager") lm D4) as (g5 & X5 & D5). do 4 eexists. split; [exact X5|]. split; [exact D5|]. intros k. apply lookup_set. }
  destruct X5 as (v5 & t5 & P5 & g5 & X5 & D5 & L5). rewrite X5 in E. cbn [bind] in E. clear X5 D4 Gm.
  unfold get_dict at 1 in E. rewrite (dr_cell _ _ _ _ _ D5) in E. cbn [bind] in E.
  destruct (next_level v5) as [z|] eqn:Ez; [|discriminate E]. cbn [bind] in E. pose proof (level_eq _ _ _ _ _ _ D5 Ez) as Hz.
  assert (Ll : lookup (lit "level") t5 = lookup (lit "level") d1). { rewrite L5, L4. apply K3, Nin; reflexivity. }
  rewrite Ll in Hz.
  destruct (set_entry_rep _ _ _ _ _ (lit "level") (SInt z) D5) as (g6 & X6 & D6). rewrite X6 in E. cbn [bind] in E.
  assert (Hpr : lookup (lit "project_root") (set (lit "level") (TS (SInt z)) t5) = lookup (lit "project_root") d1).
  { rewrite lookup_set_neq by discriminate. rewrite L5, L4. apply K3, Nin; reflexivity. }
  assert (Hsc : exists s, lookup (lit "project_root") d1 = Some (TS s)).
  { destruct (lookup (lit "project_root") d1) as [t|] eqn:Et.
    - destruct (R2 (lit "project_root")) as (m & Em1 & Em2). rewrite Et in Em2. cbn [mem] in Em1, Em2.
      assert (Hm : forall u, m = Some u -> is_scalar u). { eapply entry_scalar; [exact Em1| |]; cbn; [discriminate|exact Sp]. }
      destruct (entry_scalar _ _ _ _ _ _ _ Em2 Hm Si _ eq_refl) as [s ->]. eauto.
    - exfalso. pose proof (dr_entry _ _ _ _ _ D6 (lit "project_root")) as Hpe. rewrite Hpr in Hpe. destruct (entry_cases _ _ _ _ Hpe) as [[Y1 Y2]|(v & u & _ & Y2 & _)]; [|congruence].
      unfold reset_paths in E. unfold get_dict at 1 in E. rewrite (dr_cell _ _ _ _ _ D6) in E. cbn [bind] in E.
      match type of E with bind ?m _ = _ => destruct m as [[a g7]|] eqn:E7; [|discriminate E] end. cbn [bind] in E.
      destruct (source_path _ _); [|discriminate E]. cbn [bind] in E.
      assert (Hn : exists e, get_dict g7 (self x) = Ok e /\ lookup (lit "project_root") e = None).
      { destruct (lookup (lit "paths") _) as [[sx|b]|] eqn:Ep; [discriminate E7| |].
        - destruct (nth_error g6 b) as [[l0| | |]|] eqn:Eb; try discriminate E7. injection E7 as <- <-. eexists. unfold get_dict. rewrite upd_other.
          + rewrite (dr_cell _ _ _ _ _ D6). split; [reflexivity|exact Y1].
          + intros Q. rewrite <- Q, (dr_cell _ _ _ _ _ D6) in Eb. discriminate Eb.
        - unfold alloc, set_entry, get_dict in E7. assert (L6 : self x < List.length g6) by (eapply nth_lt; apply (dr_cell _ _ _ _ _ D6)).
          rewrite alloc_old in E7 by exact L6. rewrite (dr_cell _ _ _ _ _ D6) in E7. cbn [bind] in E7. injection E7 as <- <-. eexists. unfold get_dict. rewrite upd_same by (rewrite app1_length; lia).
          split; [reflexivity|]. rewrite lookup_set_neq by discriminate. exact Y1. }
      destruct Hn as (e & Ee & En). rewrite Ee in E. cbn [bind] in E. rewrite En in E. discriminate E. }
  destruct Hsc as (s & Es). rewrite Es in Hpr.
  destruct (paths_rep _ _ _ _ _ _ _ _ D6 (ex_intro _ s Hpr) E) as (d' & Ps' & s' & D7 & Hs' & _). assert (s' = s) as -> by congruence.
  eexists. eexists. split; [exact (dict_holds _ _ _ _ _ D7)|]. split; [exact R2|].
  assert (Lk : forall k, eqb k (lit "paths") = false -> eqb k (lit "level") = false -> lookup k (set (lit "paths") (TList (map TS (let l := pv (Source (src_root doc) (path_parent (src_sub doc))) in if eqb_scalar s l then [l] else [l; s]))) (set (lit "level") (TS (SInt z)) t5)) = lookup k t5).
  { intros k H1 H2. rewrite !lookup_set, H1, H2. reflexivity. }
  destruct Hdid as [Hd1 Hd2].
  split; [|split; [|split; [|split; [|split; [|split; [|split; [|split; [|split]]]]]]]].
  - rewrite Lk, L5, L4, L3, !lookup_set by reflexivity. reflexivity.
  - intros Hg. rewrite Lk, L5, L4, L3, !lookup_set by reflexivity. rewrite (Hd1 Hg). reflexivity.
  - intros u Hu. rewrite Lk, L5, L4, L3, !lookup_set by reflexivity. rewrite (Hd2 _ Hu). reflexivity.
  - rewrite Lk, L5, L4, L3 by reflexivity. reflexivity.
  - rewrite Lk, L5, L4 by reflexivity. reflexivity.
  - rewrite Lk, L5, L4 by reflexivity. reflexivity.
  - rewrite Lk, L5 by reflexivity. reflexivity.
  - destruct Hz as [[Hz1 ->]|(n & Hn & ->)]; [left|right; exists n]; (split; [assumption|]); rewrite lookup_set_neq by discriminate; apply lookup_set_eq.
  - exists s. split; [exact Es|]. apply lookup_set_eq.
  - intros k Hk. assert (Hne : forall a, In a [lit "src_filepath"; lit "doc_id"; lit "mtime"; lit "root_document"; lit "is_root_document"; lit "label_manager"; lit "level"; lit "paths"] -> eqb k a = false).
    { intros a Ha. destruct (eqb_spec k a) as [->|]; [contradiction|reflexivity]. }
    assert (forall a, eqb k a = false -> eqb k a = false) as _ by auto.
    rewrite Lk, L5, L4; [|apply Hne; cbn [In]; tauto|apply Hne; cbn [In]; tauto].
    rewrite (Hne (lit "label_manager")), (Hne (lit "is_root_document")), (Hne (lit "root_document")) by (cbn [In]; tauto).
    apply K3, Nin; apply Hne; cbn [In]; tauto.
Qed.

Lemma entry_plain to_int to_float lower (rp : bool) v r : Entry to_int to_float lower rp true None v r -> r = v.
Proof. intros H. inversion H; reflexivity. Qed.
Lemma entry_same to_int to_float lower (rp : bool) o r : Entry to_int to_float lower rp true o None r -> r = o.
Proof. intros H. inversion H; reflexivity. Qed.
Lemma inherited to_int to_float lower d dp di k r : after_reset to_int to_float lower DocumentContext d dp di k r ->
  mem k (exclude_from_reset DocumentContext) = false -> mem k (do_not_inherit DocumentContext) = false -> lookup k di = None -> r = lookup k dp.
Proof. intros (m & H1 & H2) E1 E2 E3. rewrite E1, E2 in H1. rewrite E3 in H2. apply entry_plain in H1. apply entry_same in H2. congruence. Qed.

(** So the level of a document is its depth: one more than that of its parent, and the root document is
    that of its parent, whatever the context was before the reset. *)
Theorem C62_level : forall to_int to_float lower order path_value str_of_value lm, (forall l, Permutation (order l) l) ->
  forall x doc h h' d dp di F G I n r,
  holds h (VRef (self x)) (TDict d) F -> holds_parent h (parent x) dp G -> holds h (VRef (initial x)) (TDict di) I ->
  apart F G -> apart F I -> apart G I ->
  (forall t, lookup (lit "project_root") dp = Some t -> is_scalar t) -> (forall t, lookup (lit "project_root") di = Some t -> is_scalar t) ->
  lookup (lit "level") di = None -> lookup (lit "root_document") di = None ->
  lookup (lit "level") dp = Some (TS (SInt n)) -> lookup (lit "root_document") dp = Some r -> given (Some r) = true ->
  reset_document to_int to_float lower order path_value str_of_value lm x doc h = Ok h' ->
  exists d' F', holds h' (VRef (self x)) (TDict d') F' /\
    lookup (lit "level") d' = Some (TS (SInt (n + 1))) /\
    lookup (lit "root_document") d' = Some r /\ lookup (lit "is_root_document") d' = Some (TS (SBool false)).
Proof.
  intros to_int to_float lower order pv sv lm Ho x doc h h' d dp di F G I0 n r HF HG HI A1 A2 A3 Sp Si Dl Dr Pl Pr Gr E.
  destruct (C62_reset _ _ _ _ _ _ _ Ho _ _ _ _ _ _ _ _ _ _ HF HG HI A1 A2 A3 Sp Si E) as (d1 & d' & F' & H1 & H2 & _ & _ & _ & _ & H7 & H8 & _ & H10 & _).
  pose proof (inherited _ _ _ _ _ _ _ _ (H2 (lit "level")) eq_refl eq_refl Dl) as L1. pose proof (inherited _ _ _ _ _ _ _ _ (H2 (lit "root_document")) eq_refl eq_refl Dr) as L2.
  rewrite Pl in L1. rewrite Pr in L2. rewrite L2, Gr in H7, H8. exists d', F'. split; [exact H1|].
  split; [|split; [exact H7|exact H8]].
  destruct H10 as [[H _]|(m & H & H')]; [congruence|]. rewrite L1 in H. injection H as <-. exact H'.
Qed.
(** The document of a project that is in no other document is at level 1 and is the root document. *)
Theorem C62_root : forall to_int to_float lower order path_value str_of_value lm, (forall l, Permutation (order l) l) ->
  forall x doc h h' d dp di F G I,
  holds h (VRef (self x)) (TDict d) F -> holds_parent h (parent x) dp G -> holds h (VRef (initial x)) (TDict di) I ->
  apart F G -> apart F I -> apart G I ->
  (forall t, lookup (lit "project_root") dp = Some t -> is_scalar t) -> (forall t, lookup (lit "project_root") di = Some t -> is_scalar t) ->
  lookup (lit "level") di = None -> lookup (lit "root_document") di = None ->
  lookup (lit "level") dp = None -> lookup (lit "root_document") dp = None ->
  reset_document to_int to_float lower order path_value str_of_value lm x doc h = Ok h' ->
  exists d' F', holds h' (VRef (self x)) (TDict d') F' /\
    lookup (lit "level") d' = Some (TS (SInt 1)) /\
    lookup (lit "root_document") d' = Some (TS (doc_ref doc)) /\ lookup (lit "is_root_document") d' = Some (TS (SBool true)).
Proof.
  intros to_int to_float lower order pv sv lm Ho x doc h h' d dp di F G I0 HF HG HI A1 A2 A3 Sp Si Dl Dr Pl Pr E.
  destruct (C62_reset _ _ _ _ _ _ _ Ho _ _ _ _ _ _ _ _ _ _ HF HG HI A1 A2 A3 Sp Si E) as (d1 & d' & F' & H1 & H2 & _ & _ & _ & _ & H7 & H8 & _ & H10 & _).
  pose proof (inherited _ _ _ _ _ _ _ _ (H2 (lit "level")) eq_refl eq_refl Dl) as L1. pose proof (inherited _ _ _ _ _ _ _ _ (H2 (lit "root_document")) eq_refl eq_refl Dr) as L2.
  rewrite Pl in L1. rewrite Pr in L2. rewrite L2 in H7, H8. cbn [given] in H7, H8. exists d', F'. split; [exact H1|].
  split; [|split; [exact H7|exact H8]].
  destruct H10 as [[_ H]|(m & H & H')]; [exact H|congruence].
Qed.

(** ** Findings *)
(** The entry 'target' is inherited: a document that names its own targets does not get them when
    a document above it has a 'target'. *)
Theorem C62_own_targets_refuted :
  ~ (forall to_int to_float lower order, (forall l, Permutation (order l) l) ->
     forall p h x h1 header rest h2 own l,
     new_context to_int to_float lower order DocumentContext nil (Some p) nil h = Ok (x, h1) ->
     load to_int to_float lower DocumentContext x header true true h1 = Ok (rest, h2) ->
     lookup (lit "targets") (snd (StrToDict.load_from_string header)) = Some own ->
     targets h2 (self x) = Ok l -> forall e, In e l -> exists n, In n (str_to_list own) /\ extension_for n e).
Proof.
  intros H.
  set (h := [CDict [(lit "target", VS (SStr (lit "pdf")))]]).
  set (header := lit "---" ++ [10%N] ++ lit "targets: html" ++ [10%N] ++ lit "---" ++ [10%N] ++ lit "text").
  set (x := {| self := 1; parent := Some 0; initial := 2 |}).
  destruct (new_context Props.Context.no_int Props.Context.no_float Props.Context.id_str Props.Context.id_order DocumentContext nil (Some 0) nil h) as [[x1 h1]|] eqn:E1; [|discriminate E1].
  destruct (load Props.Context.no_int Props.Context.no_float Props.Context.id_str DocumentContext x1 header true true h1) as [[rest h2]|] eqn:E2.
  2:{ vm_compute in E1. injection E1 as <- <-. vm_compute in E2. discriminate E2. }
  specialize (H _ _ _ _ (fun l => Permutation_refl l) _ _ _ _ _ _ _ (lit "html") [lit ".pdf"] E1 E2).
  assert (N : ~ exists n, In n (str_to_list (lit "html")) /\ extension_for n (lit ".pdf")).
  { intros (n & Hn & He). vm_compute in Hn. destruct Hn as [<-|[]]. apply with_period_iff in He. vm_compute in He. discriminate He. }
  apply N, H.
  - vm_compute. reflexivity.
  - vm_compute in E1. injection E1 as <- <-. vm_compute in E2. injection E2 as <- <-. vm_compute. reflexivity.
  - left. reflexivity.
Qed.

(** ** Examples *)
Lemma holds_scalars h a (d : dict str scalar) : nth_error h a = Some (CDict (Props.Context.scalars d)) -> wf d ->
  holds h (VRef a) (TDict (map (fun kv => (fst kv, TS (snd kv))) d)) (Props.Context.none a).
Proof. intros H W. exact (dict_holds _ _ _ _ _ (Props.Context.scalars_rep _ _ _ H W)). Qed.
Definition ex_entries : dict str scalar :=
  [(lit "targets", SStr (lit "html, .pdf, html")); (lit "include", SStr (lit "  a/b.dm " ++ [10; 32; 10]%N ++ lit "c.dm"))].
Example C62_ex :
  let h := [CDict (Props.Context.scalars ex_entries)] in
  holds h (VRef 0) (TDict (map (fun kv => (fst kv, TS (snd kv))) ex_entries)) (Props.Context.none 0) /\
  written (entry_of [lit "target"; lit "targets"] (map (fun kv => (fst kv, TS (snd kv))) ex_entries)) [lit "html"; lit ".pdf"; lit "html"] /\
  targets h 0 = Ok [lit ".html"; lit ".pdf"] /\
  includes h 0 (of_str (lit "/p")) (of_str (lit "book/main.dm")) =
    Ok [Source (of_str (lit "/p")) (of_str (lit "book/a/b.dm")); Source (of_str (lit "/p")) (of_str (lit "book/c.dm"))].
Proof.
  cbn zeta. split; [apply holds_scalars; [reflexivity|]|split; [|split]].
  - unfold wf. vm_compute. constructor; [intros [E|[]]; discriminate E|]. constructor; [intros []|constructor].
  - vm_compute. reflexivity.
  - vm_compute. reflexivity.
  - vm_compute. reflexivity.
Qed.

Definition ex_parent : dict str scalar := [(lit "level", SInt 1); (lit "root_document", SOpq 1 0); (lit "project_root", SOpq 2 0)].
Definition ex_doc : document := {| doc_ref := SOpq 1 1; src_root := of_str (lit "/p"); src_sub := of_str (lit "a/b.dm"); doc_id := lit "7"; doc_mtime := Some 5%N |}.
Definition ex_path (x : xpath) : scalar := match x with Source _ s => SOpq 2 (length (parts s)) | _ => SOpq 2 9 end.
Example C62_ex_reset :
  let h := [CDict (Props.Context.scalars ex_parent); CDict (Props.Context.scalars [(lit "level", SInt 9)]); CDict (Props.Context.scalars nil)] in
  let x := {| self := 1; parent := Some 0; initial := 2 |} in
  holds h (VRef 1) (TDict [(lit "level", TS (SInt 9))]) (Props.Context.none 1) /\
  holds_parent h (Some 0) (map (fun kv => (fst kv, TS (snd kv))) ex_parent) (Props.Context.none 0) /\
  holds h (VRef 2) (TDict nil) (Props.Context.none 2) /\
  apart (Props.Context.none 1) (Props.Context.none 0) /\ apart (Props.Context.none 1) (Props.Context.none 2) /\ apart (Props.Context.none 0) (Props.Context.none 2) /\
  exists h', reset_document Props.Context.no_int Props.Context.no_float Props.Context.id_str Props.Context.id_order ex_path (fun _ => nil) (SOpq 3 0) x ex_doc h = Ok h' /\
    exists d, nth_error h' 1 = Some (CDict d) /\ lookup (lit "level") d = Some (VS (SInt 2)).
Proof.
  cbn zeta. split; [|split; [|split; [|split; [|split; [|split]]]]].
  - apply (holds_scalars _ 1 [(lit "level", SInt 9)]); [reflexivity|]. repeat constructor. intros [].
  - apply holds_scalars; [reflexivity|]. unfold wf. vm_compute. constructor; [intros [E|[E|[]]]; discriminate E|]. constructor; [intros [E|[]]; discriminate E|]. constructor; [intros []|constructor].
  - apply (holds_scalars _ 2 nil); [reflexivity|]. constructor.
  - intros y. rewrite !Props.Context.none_iff. lia.
  - intros y. rewrite !Props.Context.none_iff. lia.
  - intros y. rewrite !Props.Context.none_iff. lia.
  - vm_compute. eexists. split; [reflexivity|]. eexists. split; [reflexivity|]. reflexivity.
Qed.

(** C13 - C19: the label manager. *)
From Coq Require Import List Bool Arith NArith Lia Sorted Permutation.
From Verif.Base Require Import Str StrFacts ListFacts Dict DictFacts Sort SortFacts PyText PyTextFacts Result.
From Verif.Model Require Import ListUtils Attributes Labels.
From Verif.Spec Require Import Labels.
From Verif.Proof Require Import Attributes Labels.
Import ListNotations.

(** ** Identifiers *)
Lemma parse_both sep id d l : sep_of sep <> [] -> names_both (sep_of sep) id d l -> parse_id sep id = (Some d, l).
Proof.
  intros Hs [-> Hu]. unfold parse_id. set (s := sep_of sep) in *. rewrite split_s_first; [|exact Hs|].
  - rewrite split_s_none; [reflexivity|]. destruct (contains l s) eqn:E; [|reflexivity].
    apply contains_iff in E as (a & b & ->). destruct (Hu (d ++ s ++ a) b) as [E _].
    + rewrite <- !app_assoc. reflexivity.
    + apply (f_equal (@length _)) in E. rewrite !app_length in E. destruct s; [congruence|]. cbn [length] in E. lia.
  - intros a b E. destruct (Hu a b E) as [-> _]. lia.
Qed.
Lemma parse_label sep id : names_label (sep_of sep) id -> parse_id sep id = (None, id).
Proof.
  intros H. unfold parse_id. rewrite split_s_none; [reflexivity|].
  destruct (contains id (sep_of sep)) eqn:E; [|reflexivity]. apply contains_iff in E as (a & b & E). exfalso. exact (H a b E).
Qed.

Lemma lookup_keyed (ls : labels) k l : wf ls -> keyed ls -> lookup k ls = Some l <-> In l (values ls) /\ key_of l = k.
Proof.
  intros Hw Hk. split.
  - intros E. apply lookup_In in E. unfold keyed in Hk. rewrite Hk in E. unfold tie in E.
    apply in_map_iff in E as (x & [= <- <-] & Hx). auto.
  - intros [Hi <-]. apply In_lookup; [exact Hw|]. unfold keyed in Hk. rewrite Hk. unfold tie.
    apply in_map_iff. exists l. auto.
Qed.

Lemma first_unique {A} (P : A -> Prop) x y : forall a b a' b', a ++ x :: b = a' ++ y :: b' -> P x -> P y ->
  (forall z, In z a -> ~ P z) -> (forall z, In z a' -> ~ P z) -> x = y.
Proof.
  induction a as [|z a IH]; intros b [|z' a'] b' E Hx Hy Ha Ha'; cbn [app] in E; apply cons_inj in E as [E1 E2].
  - exact E1.
  - subst z'. exfalso. apply (Ha' x); [left; reflexivity|exact Hx].
  - subst z. exfalso. apply (Ha y); [left; reflexivity|exact Hy].
  - eapply IH; eauto; intros w Hw; [apply Ha|apply Ha']; right; exact Hw.
Qed.

(** C13: after any history no two labels have the same document and label id. *)
Theorem C13_unique :
  forall h i j a b,
    nth_error (values (m_labels (run h))) i = Some a -> nth_error (values (m_labels (run h))) j = Some b ->
    l_doc a = l_doc b -> l_id a = l_id b -> i = j.
Proof.
  intros h i j a b Ea Eb Ed Ei. destruct (Inv_run h) as (Hw & Hk & _ & _). apply (wf_keyed _ Hk) in Hw.
  apply (proj1 (NoDup_nth_error _) Hw).
  - rewrite map_length. apply nth_error_Some. congruence.
  - rewrite !nth_error_map, Ea, Eb. cbn. unfold key_of. congruence.
Qed.

(** C13: adding a label whose document already has a label with its id, and only
    that, is refused, and leaves the labels as they were.  Otherwise the label
    is put behind the others.  [d], [l]: the document and the label id that
    [id] stands for. *)
Theorem C13_duplicate_refused :
  forall h id kind content sep doc d l,
    sep_of sep <> [] ->
    names_both (sep_of sep) id d l \/ (names_label (sep_of sep) id /\ doc = Some d /\ l = id) ->
    let m := run h in
    let added := add_label id kind content sep doc m in
    (fst added = Raise DuplicateLabel <-> exists x, In x (values (m_labels m)) /\ l_doc x = d /\ l_id x = l) /\
    (fst added = Raise DuplicateLabel -> m_labels (snd added) = m_labels m) /\
    (fst added <> Raise DuplicateLabel ->
     exists x, fst added = Ok x /\ l_doc x = d /\ l_id x = l /\ l_kind x = kind /\ l_content x = content /\
       values (m_labels (snd added)) = values (m_labels m) ++ [x]).
Proof.
  intros h id kind content sep doc d l Hs Hid m added. destruct (Inv_run h) as (Hw & Hk & _ & _). fold m in Hw, Hk.
  pose proof (add_label_cases id kind content sep doc m) as H. fold added in H.
  assert (Hp : let '(d0, lid) := parse_id sep id in match d0 with Some d => Some d | None => doc end = Some d /\ lid = l).
  { destruct Hid as [Hid|(Hid & -> & ->)]; [rewrite (parse_both _ _ _ _ Hs Hid)|rewrite (parse_label _ _ Hid)]; auto. }
  destruct (parse_id sep id) as [d0 lid]. destruct Hp as [Hd ->]. cbv zeta in H. rewrite Hd in H.
  destruct (has (d, l) (m_labels m)) eqn:E; destruct H as [H1 H2].
  - rewrite H1, H2. split; [|split]; auto.
    + split; [intros _|auto]. apply has_lookup in E as [x Ex]. apply lookup_keyed in Ex as [Hx Ek]; auto.
      exists x. unfold key_of in Ek. split; [exact Hx|]. split; congruence.
    + intros C. exfalso. apply C. reflexivity.
  - rewrite H1, H2. split; [|split]; auto.
    + split; [discriminate|]. intros (x & Hx & <- & <-). exfalso.
      assert (El : lookup (l_doc x, l_id x) (m_labels m) = Some x) by (apply lookup_keyed; auto).
      unfold has in E. rewrite El in E. discriminate.
    + discriminate.
    + intros _. eexists. split; [reflexivity|]. cbn. repeat split. unfold values. rewrite map_app. reflexivity.
Qed.

(** C13: resetting documents removes their labels, and no others; resetting
    everything removes all. *)
Theorem C13_reset :
  forall h ds,
    values (m_labels (reset (Some ds) (run h))) = filter (fun l => negb (mem (l_doc l) ds)) (values (m_labels (run h))) /\
    values (m_labels (reset None (run h))) = [].
Proof.
  intros h ds. destruct (Inv_run h) as (Hw & Hk & _ & _). split; [|reflexivity].
  rewrite reset_labels by exact Hw. unfold keyed in Hk. rewrite Hk at 1. unfold tie, values at 1.
  rewrite filter_map_comm, map_map. cbn [fst snd key_of]. rewrite map_id. reflexivity.
Qed.

(** C14: 'document::label' gives the label of the document, and LabelNotFound
    exactly if there is none.  (Looking up registers the labels first.) *)
Theorem C14_with_document :
  forall h e sep id d l,
    sep_of sep <> [] -> names_both (sep_of sep) id d l ->
    let found := get_label e sep id (run h) in
    snd found = register e (run h) /\
    (forall x, fst found = Ok x <-> In x (values (m_labels (snd found))) /\ l_doc x = d /\ l_id x = l) /\
    (fst found = Raise LabelNotFound <-> forall x, In x (values (m_labels (snd found))) -> ~ (l_doc x = d /\ l_id x = l)).
Proof.
  intros h e sep id d l Hs Hid found. destruct (Inv_register e _ (Inv_run h)) as (Hw & Hk & _ & _).
  unfold found, get_label. rewrite (parse_both _ _ _ _ Hs Hid). cbn [fst snd].
  set (L := m_labels (register e (run h))) in *.
  assert (HL : forall x, lookup (d, l) L = Some x <-> In x (values L) /\ l_doc x = d /\ l_id x = l).
  { intros x. rewrite lookup_keyed by assumption. unfold key_of. split; [intros [? [= <- <-]]; auto|intros (? & <- & <-); auto]. }
  split; [reflexivity|]. destruct (lookup (d, l) L) as [y|] eqn:E.
  - split.
    + intros x. rewrite <- HL. split; congruence.
    + split; [discriminate|]. intros H. destruct (proj1 (HL y) eq_refl) as [H1 H2]. exfalso. exact (H y H1 H2).
  - split.
    + intros x. rewrite <- HL. split; discriminate.
    + split; [|reflexivity]. intros _ x Hx Hy. assert (None = Some x) by (apply HL; auto). discriminate.
Qed.

(** C14: an identifier without a document gives the first label with that id,
    and LabelNotFound exactly if there is none. *)
Theorem C14_without_document :
  forall h e sep id,
    names_label (sep_of sep) id ->
    let found := get_label e sep id (run h) in
    snd found = register e (run h) /\
    (forall x, fst found = Ok x <->
       exists a b, values (m_labels (snd found)) = a ++ x :: b /\ l_id x = id /\ (forall y, In y a -> l_id y <> id)) /\
    (fst found = Raise LabelNotFound <-> forall x, In x (values (m_labels (snd found))) -> l_id x <> id).
Proof.
  intros h e sep id Hid found. destruct (Inv_register e _ (Inv_run h)) as (Hw & Hk & _ & _).
  unfold found, get_label. rewrite (parse_label _ _ Hid). cbn [fst snd].
  set (L := m_labels (register e (run h))) in *. split; [reflexivity|].
  unfold keyed in Hk. rewrite Hk. rewrite values_tie. generalize (values L). clear. intros V.
  assert (G : match find (fun kl : label_key * label => eqb (snd (fst kl)) id) (tie V) with
              | Some (_, x) => exists a b, V = a ++ x :: b /\ l_id x = id /\ (forall y, In y a -> l_id y <> id)
              | None => forall x, In x V -> l_id x <> id
              end).
  { induction V as [|v V IH]; [intros x []|]. cbn [tie map find fst snd key_of].
    destruct (eqb_spec (l_id v) id) as [E|E].
    - exists [], V. split; [reflexivity|]. split; [exact E|]. intros y [].
    - fold (tie V). destruct (find _ (tie V)) as [[k x]|].
      + destruct IH as (a & b & -> & E1 & E2). exists (v :: a), b. split; [reflexivity|]. split; [exact E1|].
        intros y [<-|Hy]; auto.
      + intros x [<-|Hx]; auto. }
  destruct (find _ (tie V)) as [[k x]|].
  - destruct G as (a & b & -> & E1 & E2). split.
    + intros y. split.
      * intros [= <-]. exists a, b. auto.
      * intros (a' & b' & E & Ey & Ha'). f_equal.
        eapply (first_unique (fun z => l_id z = id)); eauto.
    + split; [discriminate|]. intros H. exfalso. apply (H x); [|exact E1]. apply in_or_app. right. left. reflexivity.
  - split.
    + intros y. split; [discriminate|]. intros (a & b & -> & Ey & _). exfalso. apply (G y); [|exact Ey].
      apply in_or_app. right. left. reflexivity.
    + split; auto.
Qed.

(** C14 (finding): a document's own label is not preferred when another document
    has one with the same id. *)
Theorem C14_own_document_refuted :
  ~ (forall h e sep doc id x,
       names_label (sep_of sep) id ->
       In x (values (m_labels (register e (run h)))) -> l_doc x = doc -> l_id x = id ->
       fst (get_label e sep id (run h)) = Ok x).
Proof.
  intros H.
  pose (h := [OAdd (lit "intro") None true None (Some (lit "a.dm")); OAdd (lit "intro") None true None (Some (lit "b.dm"))]).
  pose (e := Env None None (Some [lit "a.dm"; lit "b.dm"])).
  specialize (H h e None (lit "b.dm") (lit "intro") (Label 1 (lit "b.dm") (lit "intro") None true None no_links)).
  assert (E : fst (get_label e None (lit "intro") (run h)) =
              Ok (Label 1 (lit "b.dm") (lit "intro") None true None no_links)).
  { apply H; try reflexivity.
    - intros a b E. assert (C : contains (lit "intro") (lit "::") = true) by (apply contains_iff; exists a, b; exact E).
      discriminate C.
    - vm_compute. auto. }
  vm_compute in E. discriminate E.
Qed.

(** C14 (finding): an identifier with two separators finds a label that it does
    not name. *)
Theorem C14_other_label_refuted :
  ~ (forall h e id x, fst (get_label e None id (run h)) = Ok x ->
       id = l_id x \/ id = l_doc x ++ lit "::" ++ l_id x).
Proof.
  intros H.
  specialize (H [OAdd (lit "ch") None true None (Some (lit "a.dm"))] (Env None None None) (lit "ch::two::x")
                (Label 0 (lit "a.dm") (lit "ch") None true None no_links) eq_refl).
  destruct H as [H|H]; discriminate H.
Qed.

(** ** Numbers *)
Lemma split_map {A B} (f : A -> B) X : forall Y a x b, map f X = map f Y -> X = a ++ x :: b ->
  exists a' x' b', Y = a' ++ x' :: b' /\ map f a = map f a' /\ f x = f x'.
Proof.
  intros Y a. revert X Y. induction a as [|z a IH]; intros X Y x b E ->; destruct Y as [|y Y]; cbn [map app] in E; try discriminate.
  - apply cons_inj in E as [E1 E2]. exists [], y, Y. auto.
  - apply cons_inj in E as [E1 E2]. destruct (IH _ Y x b E2 eq_refl) as (a' & x' & b' & -> & E3 & E4).
    exists (y :: a'), x', b'. cbn [map]. split; [reflexivity|]. split; [congruence|exact E4].
Qed.

Definition ident_kind (i : nat * str * str * option (list str) * bool) : option (list str) :=
  match i with (_, _, _, k, _) => k end.

Lemma registered_order e m k l a b ks : m_registered m = false ->
  m_labels (register e m) = a ++ (k, l) :: b -> l_kind l = Some ks ->
  exists ns, l_order l = Some ns /\ numbers (resets_of e) (met (values a)) ks ns.
Proof.
  intros Hr E Hk. unfold register in E. rewrite Hr in E. cbn [m_labels] in E.
  unfold register_content in E.
  destruct (split_map (fun kl : label_key * label => (fst kl, ident (snd kl), l_order (snd kl))) _ _ a (k, l) b
              (content_loop_same (register_orders e (m_labels m)) no_links) E) as (a' & [k' l'] & b' & E' & Ea & El).
  cbn [fst snd] in El. injection El as -> El1 El2 El3 El4 El5 El6.
  unfold register_orders in E'. fold (resets_of e) in E'.
  destruct (order_loop_spec (resets_of e) _ [] [] ltac:(intros k0; exists [], []; repeat split; auto; intros ? []) _ _ _ _ E' ks)
    as (ns & Hns & Hnum); [congruence|].
  exists ns. split; [congruence|]. cbn [app] in Hnum.
  assert (Em : met (values a) = met (values a')).
  { unfold met. rewrite !flat_map_concat_map. f_equal. unfold values. rewrite !map_map.
    apply (f_equal (map (fun i : label_key * (nat * str * str * option (list str) * bool) * option (list nat) =>
                           match ident_kind (snd (fst i)) with Some ks => ks | None => [] end))) in Ea.
    rewrite !map_map in Ea. cbn [fst snd] in Ea. exact Ea. }
  rewrite Em. exact Hnum.
Qed.

Lemma reset_by_eq e : forall k, reset_by e k = resetter (resets_of e) k.
Proof. intros k. unfold reset_by, resetter, resets_of. destruct (e_resets e); reflexivity. Qed.
Lemma number_ext R R' evs k n : (forall x, R x = R' x) -> number R evs k n -> number R' evs k n.
Proof.
  intros HR (a & b & -> & Ha & Hb & Hn). exists a, b. split; [reflexivity|]. unfold resets_kind in *. split; [|split].
  - destruct Ha as [->|(a' & k' & -> & Ha)]; [auto|]. right. exists a', k'. rewrite <- HR. auto.
  - intros k' Hk'. rewrite <- HR. auto.
  - exact Hn.
Qed.

(** C15: after registration a label has a number for each of its kinds, which is
    the number of times that the kind was met, up to this label, since the last
    time that a kind was met that resets it. *)
Theorem C15_numbers :
  forall m e a l b ks,
    m_registered m = false ->
    values (m_labels (register e m)) = a ++ l :: b -> l_kind l = Some ks ->
    exists ns, l_order l = Some ns /\ length ns = length ks /\
      forall i k n, nth_error ks i = Some k -> nth_error ns i = Some n ->
        number (reset_by e) (met a ++ firstn (S i) ks) k n.
Proof.
  intros m e a l b ks Hr E Hk. unfold values in E.
  apply map_eq_app in E as (a' & b' & E & Ea & Eb). apply map_eq_cons in Eb as ([k l'] & b'' & -> & El & Eb).
  cbn [snd] in El. subst l'. destruct (registered_order e m k l a' b'' ks Hr E Hk) as (ns & H1 & H2 & H3).
  exists ns. split; [exact H1|]. split; [exact H2|]. intros i k0 n Hk0 Hn.
  eapply number_ext; [intros x; symmetry; apply reset_by_eq|]. subst a. apply H3; assumption.
Qed.

(** C15: so numbers are 0 after a reset, and otherwise they go up by one each
    time: the first one after a reset is 1, and there are no gaps. *)
Theorem C15_no_gaps :
  forall R evs k,
    (exists n, number R evs k n /\ forall n', number R evs k n' -> n' = n) /\
    number R [] k 0 /\
    (forall k', In k (R k') -> number R (evs ++ [k']) k 0) /\
    (forall n between, number R evs k n -> (forall k', In k' (between ++ [k]) -> ~ In k (R k')) -> ~ In k between ->
       number R (evs ++ between ++ [k]) k (S n)).
Proof.
  intros R evs k.
  assert (Hdec : forall k', {In k (R k')} + {~ In k (R k')}).
  { intros k'. destruct (mem k (R k')) eqn:E; [left; apply mem_In; exact E|right; apply mem_not_In; exact E]. }
  split; [|split; [|split]].
  - assert (Hex : exists n, number R evs k n).
    { induction evs as [|x evs IH] using rev_ind.
      - exists 0, [], []. repeat split; auto; intros ? [].
      - destruct (Hdec x) as [Hx|Hx].
        + exists 0, (evs ++ [x]), []. rewrite app_nil_r. split; [reflexivity|]. split; [|split; [intros ? []|reflexivity]].
          right. exists evs, x. auto.
        + destruct IH as (n & a & b & -> & Ha & Hb & Hn). exists (length (filter (eqb k) (b ++ [x]))), a, (b ++ [x]).
          rewrite app_assoc. split; [reflexivity|]. split; [exact Ha|]. split; [|reflexivity].
          intros k' Hk'. apply in_app_iff in Hk' as [Hk'|Hk']; [auto|]. destruct Hk' as [Hk'|[]]. subst k'. exact Hx. }
    destruct Hex as [n Hn]. exists n. split; [exact Hn|]. intros n' Hn'.
    assert (Hmin : forall a b a' b', a ++ b = a' ++ b' ->
      (a = [] \/ exists a0 k0, a = a0 ++ [k0] /\ resets_kind R k0 k) ->
      (a' = [] \/ exists a0 k0, a' = a0 ++ [k0] /\ resets_kind R k0 k) ->
      (forall x, In x b -> ~ resets_kind R x k) -> (forall x, In x b' -> ~ resets_kind R x k) -> length a <= length a').
    { intros a b a' b' E Ha Ha' Hb Hb'. destruct Ha as [->|(a0 & k0 & -> & Hk0)]; [cbn; lia|].
      destruct (le_lt_dec (length (a0 ++ [k0])) (length a')) as [|Hlt]; [assumption|]. exfalso.
      apply (Hb' k0); [|exact Hk0]. rewrite <- app_assoc in E. cbn [app] in E. rewrite app_length in Hlt. cbn in Hlt.
      assert (En : nth_error (a' ++ b') (length a0) = Some k0).
      { rewrite <- E. rewrite nth_error_app2 by lia. rewrite Nat.sub_diag. reflexivity. }
      rewrite nth_error_app2 in En by lia. eapply nth_error_In; eauto. }
    destruct Hn as (a & b & E & Ha & Hb & ->). destruct Hn' as (a' & b' & E' & Ha' & Hb' & ->).
    assert (El : length a = length a').
    { apply Nat.le_antisymm; [apply (Hmin a b a' b')|apply (Hmin a' b' a b)]; auto; congruence. }
    rewrite E in E'. destruct (app_len_inj _ _ _ _ E' El) as [-> ->]. reflexivity.
  - exists [], []. repeat split; auto; intros ? [].
  - intros k' Hk'. exists (evs ++ [k']), []. rewrite app_nil_r. split; [reflexivity|]. split; [|split; [intros ? []|reflexivity]].
    right. exists evs, k'. auto.
  - intros n between (a & b & -> & Ha & Hb & ->) Hno Hk.
    exists a, (b ++ between ++ [k]). rewrite !app_assoc. repeat split; auto.
    + intros k' Hk'. rewrite <- app_assoc in Hk'. apply in_app_iff in Hk' as [Hk'|Hk']; [auto|]. apply Hno. exact Hk'.
    + rewrite !filter_app, !app_length. cbn [filter]. rewrite eqb_refl. cbn [length].
      rewrite (filter_none (eqb k) between); [cbn; lia|]. intros x Hx. destruct (eqb_spec k x) as [->|]; [contradiction|reflexivity].
Qed.

(** ** Order of the labels *)
Lemma isort_ext {A} (f g : A -> A -> bool) l : (forall x y, In x l -> In y l -> f x y = g x y) -> isort f l = isort g l.
Proof.
  induction l as [|x l IH]; intros H; [reflexivity|]. cbn [isort]. rewrite IH by (intros; apply H; right; assumption).
  apply insert_ext. intros y Hy. apply H; [left; reflexivity|]. right. eapply Permutation_in; [apply isort_perm|exact Hy].
Qed.
Lemma index_filter (p : str -> bool) x y l : p x = true -> p y = true -> In x l -> In y l ->
  Nat.leb (index_of x (filter p l)) (index_of y (filter p l)) = Nat.leb (index_of x l) (index_of y l).
Proof.
  intros Px Py. induction l as [|z l IH]; intros Hx Hy; [destruct Hx|]. cbn [filter index_of].
  destruct (eqb_spec x z) as [Ex|Ex].
  - subst z. rewrite Px. cbn [index_of]. rewrite eqb_refl. reflexivity.
  - destruct Hx as [Hx|Hx]; [congruence|]. destruct (eqb_spec y z) as [Ey|Ey].
    + subst z. rewrite Py. cbn [index_of]. destruct (eqb_spec x y); [congruence|]. rewrite eqb_refl. reflexivity.
    + destruct Hy as [Hy|Hy]; [congruence|]. destruct (p z); cbn [index_of].
      * destruct (eqb_spec x z); [congruence|]. destruct (eqb_spec y z); [congruence|]. cbn [Nat.leb]. apply IH; assumption.
      * cbn [Nat.leb]. apply IH; assumption.
Qed.
Lemma first_mentions_In d ds : In d (first_mentions ds) <-> In d ds.
Proof.
  induction ds as [|x ds IH]; [reflexivity|]. cbn [first_mentions In]. rewrite filter_In, IH.
  destruct (eqb_spec d x) as [->|]; cbn; intuition congruence.
Qed.
Lemma first_mentions_NoDup ds : NoDup (first_mentions ds).
Proof.
  induction ds as [|x ds IH]; [constructor|]. cbn [first_mentions]. constructor.
  - rewrite filter_In, eqb_refl. cbn. intros [_ H]. discriminate.
  - apply NoDup_filter. exact IH.
Qed.
Lemma first_mentions_index x y ds : In x ds -> In y ds ->
  Nat.leb (index_of x (first_mentions ds)) (index_of y (first_mentions ds)) = Nat.leb (index_of x ds) (index_of y ds).
Proof.
  induction ds as [|z ds IH]; intros Hx Hy; [destruct Hx|]. cbn [first_mentions index_of].
  destruct (eqb_spec x z) as [Ex|Ex]; [reflexivity|]. destruct (eqb_spec y z) as [Ey|Ey]; [reflexivity|].
  destruct Hx as [Hx|Hx]; [congruence|]. destruct Hy as [Hy|Hy]; [congruence|]. cbn [Nat.leb].
  rewrite index_filter.
  - apply IH; assumption.
  - destruct (eqb_spec x z); [congruence|reflexivity].
  - destruct (eqb_spec y z); [congruence|reflexivity].
  - apply first_mentions_In. exact Hx.
  - apply first_mentions_In. exact Hy.
Qed.
Lemma arranged_first_mentions ids L : arranged ids L = flat_map (fun d => filter (fun l => eqb (l_doc l) d) L) (first_mentions ids).
Proof.
  rewrite <- arranged_flat by apply first_mentions_NoDup. unfold arranged.
  assert (Em : forall l, mem (l_doc l) (first_mentions ids) = mem (l_doc l) ids).
  { intros l. destruct (mem (l_doc l) ids) eqn:E.
    - apply mem_In. apply first_mentions_In. apply mem_In. exact E.
    - apply mem_not_In. rewrite first_mentions_In. apply mem_not_In. exact E. }
  rewrite (filter_ext _ _ Em). unfold sort_by. apply isort_ext. intros x y Hx Hy.
  apply filter_In in Hx as [_ Hx], Hy as [_ Hy]. symmetry. apply first_mentions_index; apply mem_In; assumption.
Qed.

(** C16: registration puts the labels of the first document of the tree first,
    then those of the second, and so on; the labels of one document keep their
    order; labels of other documents are gone, and no others are.  Nothing but
    numbers and links changes in a label. *)
Theorem C16_order :
  forall h e ds,
    m_registered (run h) = false -> e_docs e = Some ds ->
    map ident (values (m_labels (register e (run h)))) =
    map ident (flat_map (fun d => filter (fun l => eqb (l_doc l) d) (values (m_labels (run h)))) (first_mentions ds)).
Proof.
  intros h e ds Hr Hd. destruct (Inv_run h) as (Hw & Hk & _ & _).
  destruct (registration_keyed e _ Hw Hk) as (_ & _ & E). unfold register. rewrite Hr. cbn [m_labels].
  etransitivity; [exact E|]. rewrite arranged_first_mentions. unfold docs_of. rewrite Hd. reflexivity.
Qed.
(** C16: the same without a root document: documents in the order of their
    labels, and no label is dropped. *)
Theorem C16_order_without_root :
  forall h e,
    m_registered (run h) = false -> e_docs e = None ->
    map ident (values (m_labels (register e (run h)))) =
    map ident (flat_map (fun d => filter (fun l => eqb (l_doc l) d) (values (m_labels (run h))))
                        (first_mentions (map l_doc (values (m_labels (run h)))))).
Proof.
  intros h e Hr Hd. destruct (Inv_run h) as (Hw & Hk & _ & _).
  destruct (registration_keyed e _ Hw Hk) as (_ & _ & E). unfold register. rewrite Hr. cbn [m_labels].
  etransitivity; [exact E|]. rewrite arranged_first_mentions. unfold docs_of. rewrite Hd. reflexivity.
Qed.
(** C16: in particular exactly the labels of documents in the tree are kept. *)
Theorem C16_kept :
  forall h e ds,
    m_registered (run h) = false -> e_docs e = Some ds ->
    Permutation (map ident (values (m_labels (register e (run h)))))
                (map ident (filter (fun l => mem (l_doc l) ds) (values (m_labels (run h))))).
Proof.
  intros h e ds Hr Hd. destruct (Inv_run h) as (Hw & Hk & _ & _).
  destruct (registration_keyed e _ Hw Hk) as (_ & _ & E). unfold register. rewrite Hr. cbn [m_labels].
  eapply perm_trans; [apply eq_perm; exact E|]. unfold docs_of. rewrite Hd. apply Permutation_map. apply arranged_perm.
Qed.

(** ** Registering again *)
Lemma order_content_fix resets : forall X c cur,
  order_loop resets c (content_loop cur (order_loop resets c X)) = content_loop cur (order_loop resets c X).
Proof.
  induction X as [|[k l] X IH]; intros c cur; [reflexivity|]. cbn [order_loop].
  destruct (l_kind l) as [ks|] eqn:E.
  - destruct (number_kinds resets c ks) as [ns c'] eqn:En. cbn [content_loop]. cbn [l_content set_order].
    destruct (l_content l) eqn:El; cbn [order_loop]; cbn [l_kind set_links set_order]; rewrite E, En, IH; reflexivity.
  - cbn [content_loop]. destruct (l_content l) eqn:El; cbn [order_loop]; cbn [l_kind set_links]; rewrite E, IH; reflexivity.
Qed.
Lemma sorted_own_index (key : str -> nat) D : (forall x y, In x D -> In y D -> key x = key y -> x = y) ->
  StronglySorted (fun x y => key x <= key y) D -> StronglySorted (fun x y => index_of x D <= index_of y D) D.
Proof.
  induction D as [|a D IH]; intros Hinj Hs; [constructor|]. inversion Hs as [|? ? Hs' Hf]; subst.
  constructor; [|apply Forall_forall; intros y Hy; cbn [index_of]; rewrite eqb_refl; lia].
  assert (IHD : StronglySorted (fun x y => index_of x D <= index_of y D) D).
  { apply IH; [|exact Hs']. intros x y Hx Hy. apply Hinj; right; assumption. }
  assert (G : forall M, incl M D -> StronglySorted (fun x y => key x <= key y) M ->
     StronglySorted (fun x y => index_of x D <= index_of y D) M ->
     StronglySorted (fun x y => index_of x (a :: D) <= index_of y (a :: D)) M).
  { induction M as [|x M IHM]; intros Hi S1 S2; [constructor|].
    inversion S1 as [|? ? S1' F1]; subst. inversion S2 as [|? ? S2' F2]; subst. constructor.
    - apply IHM; auto. intros z Hz. apply Hi. right. exact Hz.
    - rewrite Forall_forall in *. intros y Hy. cbn [index_of].
      destruct (eqb_spec x a) as [Ex|Ex]; [lia|]. destruct (eqb_spec y a) as [Ey|Ey].
      + exfalso. apply Ex. subst y. specialize (F1 a Hy).
        assert (Hx : In x D) by (apply Hi; left; reflexivity). specialize (Hf x Hx).
        apply Hinj; [right; exact Hx|left; reflexivity|lia].
      + specialize (F2 y Hy). lia. }
  apply G; auto. apply incl_refl.
Qed.

Lemma StronglySorted_map {A B} (f : A -> B) (R : B -> B -> Prop) l :
  StronglySorted R (map f l) <-> StronglySorted (fun x y => R (f x) (f y)) l.
Proof.
  induction l as [|x l IH]; cbn [map]; [split; constructor|].
  split; intros H; inversion H as [|? ? Hs Hf]; subst; constructor; try (apply IH; exact Hs).
  - apply (proj1 (Forall_map f (R (f x)) l)). exact Hf.
  - apply (proj2 (Forall_map f (R (f x)) l)). exact Hf.
Qed.

Lemma registration_idem e ls : wf ls -> keyed ls -> registration e (registration e ls) = registration e ls.
Proof.
  intros Hw Hk. destruct (registration_keyed e ls Hw Hk) as (K & W & E).
  set (Z := registration e ls) in *.
  assert (Ed : map l_doc (values Z) = map l_doc (arranged (docs_of (e_docs e) (values ls)) (values ls))).
  { apply (f_equal (map (fun i : nat * str * str * option (list str) * bool => match i with (_, d, _, _, _) => d end))) in E.
    rewrite !map_map in E. exact E. }
  assert (Er : reorder (e_docs e) Z = Z).
  { rewrite reorder_eq by assumption. unfold keyed in K. rewrite K at 3. f_equal.
    set (ids := docs_of (e_docs e) (values ls)) in *.
    assert (Hin : forall d, In d (map l_doc (values Z)) -> In d ids).
    { intros d. rewrite Ed. intros Hd. apply in_map_iff in Hd as (x & <- & Hx).
      eapply Permutation_in in Hx; [|apply arranged_perm]. apply filter_In in Hx as [_ Hx]. apply mem_In. exact Hx. }
    assert (Hs : StronglySorted (fun x y => index_of x ids <= index_of y ids) (map l_doc (values Z))).
    { rewrite Ed. apply StronglySorted_map. apply (sort_by_sorted (fun l => index_of (l_doc l) ids)). }
    unfold arranged. rewrite filter_all.
    - apply sort_by_unique; [|reflexivity]. apply (StronglySorted_map l_doc (fun x y => index_of x _ <= index_of y _)).
      unfold docs_of in *. destruct (e_docs e) as [ds|]; [exact Hs|].
      apply (sorted_own_index (fun x => index_of x ids)); [|exact Hs].
      intros x y Hx Hy Exy. apply (index_of_inj x y ids); auto.
    - intros x Hx. apply mem_In. assert (Hd : In (l_doc x) (map l_doc (values Z))) by (apply in_map; exact Hx).
      unfold docs_of in *. destruct (e_docs e) as [ds|]; [apply Hin; exact Hd|exact Hd]. }
  unfold registration at 1. unfold register_orders. rewrite Er.
  assert (Eo : order_loop (resets_of e) [] Z = Z) by apply order_content_fix.
  fold (resets_of e). rewrite Eo. apply content_loop_idem.
Qed.

(** C17: registering twice is the same as registering once: e.g. when the
    attempt to add a duplicate label made the second registration necessary. *)
Theorem C17_register_twice :
  forall h e id kind content sep doc,
    m_registered (run h) = false ->
    let m := register e (run h) in
    fst (add_label id kind content sep doc m) = Raise DuplicateLabel ->
    register e (snd (add_label id kind content sep doc m)) = m.
Proof.
  intros h e id kind content sep doc Hr m Hdup.
  assert (Hs : snd (add_label id kind content sep doc m) = Manager (m_labels m) false (next_uid m)).
  { pose proof (add_label_cases id kind content sep doc m) as H. destruct (parse_id sep id) as [d0 lid]. cbv zeta in H.
    destruct (match d0 with Some d => Some d | None => doc end) as [d|].
    - destruct (has (d, lid) (m_labels m)); destruct H as [H1 H2]; [exact H2|congruence].
    - destruct H as [H1 H2]. exact H2. }
  rewrite Hs. unfold register at 1. cbn [m_registered m_labels next_uid].
  destruct (Inv_run h) as (Hw & Hk & _ & _). unfold m, register. rewrite Hr. cbn [m_labels next_uid].
  f_equal. apply registration_idem; assumption.
Qed.

(** C17: asking again gives the same answer and the same labels. *)
Theorem C17_queries_repeatable :
  forall h e sep id doc kinds,
    let a := get_label e sep id (run h) in
    let b := get_labels_by_kind e doc kinds (run h) in
    snd a = snd b /\
    get_label e sep id (snd a) = a /\ get_labels_by_kind e doc kinds (snd b) = b.
Proof.
  intros h e sep id doc kinds a b.
  assert (Hr : register e (register e (run h)) = register e (run h)).
  { unfold register. destruct (m_registered (run h)) eqn:E; [rewrite E; reflexivity|reflexivity]. }
  assert (Ha : snd a = register e (run h)).
  { unfold a, get_label. destruct (parse_id sep id) as [[d|] l]; reflexivity. }
  assert (Hb : snd b = register e (run h)) by reflexivity.
  split; [congruence|]. rewrite Ha, Hb. split.
  - unfold a, get_label. rewrite Hr. reflexivity.
  - unfold b, get_labels_by_kind. rewrite Hr. reflexivity.
Qed.

(** C17: adding or removing labels makes the next query number the labels
    again. *)
Theorem C17_changes_seen :
  forall h,
    (forall id kind content sep doc, m_registered (run (h ++ [OAdd id kind content sep doc])) = false) /\
    (forall ds, m_registered (run (h ++ [OReset ds])) = false).
Proof.
  intros h. split.
  - intros id kind content sep doc. unfold run. rewrite fold_left_app. cbn [fold_left do_op]. fold (run h).
    pose proof (add_label_cases id kind content sep doc (run h)) as H. destruct (parse_id sep id) as [d0 lid]. cbv zeta in H.
    destruct (match d0 with Some d => Some d | None => doc end) as [d|].
    + destruct (has (d, lid) (m_labels (run h))); destruct H as [_ ->]; reflexivity.
    + destruct H as [_ ->]; reflexivity.
  - intros ds. unfold run. rewrite fold_left_app. cbn [fold_left do_op]. destruct ds; reflexivity.
Qed.

(** C14: a label that was added is found by its document and id, as long as its
    document is part of the project. *)
Theorem C14_added_found :
  forall h e sep id kind content doc d l x,
    sep_of sep <> [] -> names_both (sep_of sep) id d l ->
    (forall ds, e_docs e = Some ds -> In d ds) ->
    fst (add_label id kind content sep doc (run h)) = Ok x ->
    exists y, fst (get_label e sep id (snd (add_label id kind content sep doc (run h)))) = Ok y /\ ident y = ident x.
Proof.
  intros h e sep id kind content doc d l x Hs Hid Hd Hx.
  pose (h' := h ++ [OAdd id kind content sep doc]).
  assert (Eh : snd (add_label id kind content sep doc (run h)) = run h').
  { unfold h', run. rewrite fold_left_app. reflexivity. }
  assert (Hr : m_registered (run h') = false) by apply C17_changes_seen.
  destruct (C13_duplicate_refused h id kind content sep doc d l Hs (or_introl Hid)) as (_ & _ & H).
  destruct H as (x' & E' & Ed & El & _ & _ & Ev); [congruence|].
  assert (x' = x) by congruence. subst x'. rewrite Eh in *.
  assert (Hin : In (ident x) (map ident (values (m_labels (register e (run h')))))).
  { destruct (e_docs e) as [ds|] eqn:Ee.
    - eapply Permutation_in; [apply Permutation_sym, (C16_kept h' e ds Hr Ee)|]. apply in_map. apply filter_In. split.
      + rewrite Ev. apply in_or_app. right. left. reflexivity.
      + apply mem_In. rewrite Ed. apply Hd. reflexivity.
    - rewrite (C16_order_without_root h' e Hr Ee). apply in_map. apply in_flat_map. exists (l_doc x).
      assert (Hx' : In x (values (m_labels (run h')))) by (rewrite Ev; apply in_or_app; right; left; reflexivity).
      split.
      + apply first_mentions_In. apply in_map. exact Hx'.
      + apply filter_In. split; [exact Hx'|apply eqb_refl]. }
  apply in_map_iff in Hin as (y & Ey & Hy). exists y. split; [|exact Ey].
  destruct (C14_with_document h' e sep id d l Hs Hid) as (E1 & E2 & _). apply E2. rewrite E1. split; [exact Hy|].
  injection Ey as _ Ey1 Ey2 _ _. split; congruence.
Qed.

(** ** Enclosing headings *)
(** the labels have not been registered yet *)
Definition fresh (m : manager) : Prop :=
  m_registered m = false /\ forall l, In l (values (m_labels m)) -> l_links l = no_links.

Lemma registered_links e m k l a b v : wf (m_labels m) -> keyed (m_labels m) -> m_registered m = false ->
  m_labels (register e m) = a ++ (k, l) :: b -> l_content l = true ->
  (exists h, encloses (content (values a ++ [l])) v h /\ link v l = Some (l_uid h)) \/
  ((forall h, ~ encloses (content (values a ++ [l])) v h) /\
   exists l0, In l0 (values (m_labels m)) /\ l_uid l0 = l_uid l /\ link v l = link v l0).
Proof.
  intros Hw Hk Hr E Hl. unfold register in E. rewrite Hr in E. cbn [m_labels] in E. unfold register_content in E.
  destruct (content_loop_spec _ [] no_links ltac:(intros w; destruct w; cbn; intros h (a0 & b0 & E0 & _); destruct a0; discriminate)
              _ _ _ _ E Hl v) as (l0 & Hin & Hid & _ & Hv).
  assert (Ev : values (a ++ [(k, l)]) = values a ++ [l]) by (unfold values; rewrite map_app; reflexivity).
  rewrite Ev in Hv. cbn [app] in Hv. destruct Hv as [Hv|[Hv1 Hv2]]; [left; exact Hv|right]. split; [exact Hv1|].
  assert (Hin2 : In (ident l0, l_links l0) (map (fun kl : label_key * label => (ident (snd kl), l_links (snd kl))) (reorder (e_docs e) (m_labels m)))).
  { assert (Es := map_compose_eq (fun kl : label_key * label => (fst kl, ident (snd kl), l_links (snd kl)))
                   (fun x => (snd (fst x), snd x)) _ _ (order_loop_same (resets_of e) (reorder (e_docs e) (m_labels m)) [])).
    cbn [fst snd] in Es. rewrite <- Es. unfold register_orders in Hin. fold (resets_of e) in Hin.
    apply (in_map (fun kl : label_key * label => (ident (snd kl), l_links (snd kl)))) in Hin. exact Hin. }
  rewrite reorder_eq in Hin2 by assumption. apply in_map_iff in Hin2 as ([k1 l1] & [= U D I K C Lk] & Hin2). 
  exists l1. split; [|split].
  - unfold tie in Hin2. apply in_map_iff in Hin2 as (l2 & [= _ <-] & Hin2).
    eapply Permutation_in in Hin2; [|apply arranged_perm]. apply filter_In in Hin2 as [Hin2 _]. exact Hin2.
  - cbn [snd] in *. injection Hid as Hid _ _ _ _. congruence.
  - rewrite Hv2. cbn [snd] in Lk. unfold link. rewrite Lk. reflexivity.
Qed.

(** C18: after the first registration a heading or caption is linked to the
    headings that enclose it, and only to these. *)
Theorem C18_links :
  forall h e a l b v,
    fresh (run h) ->
    values (m_labels (register e (run h))) = a ++ l :: b -> l_content l = true ->
    match link v l with
    | Some u => exists x, encloses (content (a ++ [l])) v x /\ l_uid x = u
    | None => forall x, ~ encloses (content (a ++ [l])) v x
    end.
Proof.
  intros h e a l b v [Hr Hf] E Hl. destruct (Inv_run h) as (Hw & Hk & _ & _). unfold values in E.
  apply map_eq_app in E as (a' & b' & E & Ea & Eb). apply map_eq_cons in Eb as ([k l'] & b'' & -> & El & Eb).
  cbn [snd] in El. subst l'.
  destruct (registered_links e _ k l a' b'' v Hw Hk Hr E Hl) as [(x & Hx & ->)|(Hx & l0 & Hi & _ & ->)]; unfold values in Hx; rewrite Ea in Hx.
  - exists x. auto.
  - unfold link. rewrite (Hf l0 Hi). destruct v; exact Hx.
Qed.

(** C18: after any registration: if there is an enclosing heading, the link is
    to it.  Missing: there may be a link although there is no such heading. *)
Theorem C18_links_partial :
  forall h e a l b v x,
    m_registered (run h) = false ->
    values (m_labels (register e (run h))) = a ++ l :: b -> l_content l = true ->
    encloses (content (a ++ [l])) v x -> exists x', encloses (content (a ++ [l])) v x' /\ link v l = Some (l_uid x').
Proof.
  intros h e a l b v x Hr E Hl Hx. destruct (Inv_run h) as (Hw & Hk & _ & _). unfold values in E.
  apply map_eq_app in E as (a' & b' & E & Ea & Eb). apply map_eq_cons in Eb as ([k l'] & b'' & -> & El & Eb).
  cbn [snd] in El. subst l'.
  destruct (registered_links e _ k l a' b'' v Hw Hk Hr E Hl) as [(x' & Hx' & E')|(Hn & _)].
  - unfold values in Hx'. rewrite Ea in Hx'. eauto.
  - exfalso. apply (Hn x). unfold values. rewrite Ea. exact Hx.
Qed.

(** C18: there is at most one enclosing heading of a level. *)
Theorem C18_enclosing_unique :
  forall upto v x y, encloses upto v x -> encloses upto v y -> x = y.
Proof.
  induction upto as [|l upto IH] using rev_ind; intros v x y Hx Hy.
  - destruct Hx as (a & b & E & _). destruct a; discriminate.
  - apply encloses_snoc in Hx as [[-> Hx]|[Hx Hx']], Hy as [[-> Hy]|[Hy Hy']].
    + reflexivity.
    + specialize (Hy' v Hx). lia.
    + specialize (Hx' v Hy). lia.
    + eapply IH; eauto.
Qed.

Lemma find_uid (L : list label) x : NoDup (map l_uid L) -> In x L -> find (fun l => Nat.eqb (l_uid l) (l_uid x)) L = Some x.
Proof.
  induction L as [|y L IH]; intros Hn Hi; [destruct Hi|]. cbn [map] in Hn. apply NoDup_cons_iff in Hn as [Hni Hn].
  cbn [find]. destruct (Nat.eqb_spec (l_uid y) (l_uid x)) as [E|E].
  - destruct Hi as [->|Hi]; [reflexivity|]. exfalso. apply Hni. rewrite E. apply in_map. exact Hi.
  - destruct Hi as [->|Hi]; [congruence|]. auto.
Qed.
Lemma last_snoc {A} (l : list A) (x : A) d : last (l ++ [x]) d = x.
Proof. apply last_last. Qed.

(** C18: the tree number is the dotted list of the numbers of the enclosing
    headings, from part to subsubsection (numbers that are 0 are left out). *)
Theorem C18_tree_number :
  forall h e a l b,
    fresh (run h) ->
    let ls := m_labels (register e (run h)) in
    values ls = a ++ l :: b -> l_content l = true ->
    exists num : level -> option nat,
      (forall v, match num v with
                 | Some n => heading_number (content (a ++ [l])) v n
                 | None => forall x, ~ encloses (content (a ++ [l])) v x
                 end) /\
      tree_number ls l =
      join (lit ".") (map str_of_nat (filter (fun n => negb (Nat.eqb n 0))
                       (flat_map (fun v => match num v with Some n => [n] | None => [] end) levels))).
Proof.
  intros h e a l b Hf ls E Hl.
  exists (fun v => label_number (deref ls (link v l))). split.
  - intros v. pose proof (C18_links h e a l b v Hf E Hl) as H. destruct (link v l) as [u|].
    + destruct H as (x & Hx & <-).
      destruct (Inv_register e _ (Inv_run h)) as (_ & _ & Hu & _). fold ls in Hu.
      assert (Hin : In x (values ls)).
      { destruct Hx as (a1 & b1 & E1 & _ & _). assert (Hc : In x (content (a ++ [l]))) by (rewrite E1; apply in_or_app; right; left; reflexivity).
        unfold content in Hc. apply filter_In in Hc as [Hc _]. rewrite E. apply in_app_iff in Hc as [Hc|[<-|[]]].
        - apply in_or_app. auto.
        - apply in_or_app. right. left. reflexivity. }
      cbn [deref]. rewrite find_uid by assumption.
      destruct Hx as (a1 & b1 & E1 & Hh & Hb).
      destruct Hh as [ks Hks].
      apply in_split in Hin as (p & q & Epq).
      destruct (C15_numbers (run h) e p x q _ (proj1 Hf) Epq Hks) as (ns & Hns & Hlen & _).
      rewrite app_length in Hlen. cbn [length] in Hlen.
      destruct (exists_last (l := ns)) as (o & n & En); [intros ->; cbn in Hlen; lia|].
      unfold label_number. rewrite Hns.
      assert (Elast : last ns 0 = n) by (rewrite En; apply last_last).
      destruct ns as [|n0 ns]; [destruct o; discriminate|]. rewrite Elast.
      exists x, o. split; [|rewrite Hns, En; reflexivity].
      exists a1, b1. repeat split; auto. exists ks. exact Hks.
    + cbn [deref label_number]. exact H.
  - unfold tree_number, levels. cbn [flat_map map link app].
    unfold link. change (lit ".") with [46%N]. f_equal.
    assert (G : forall (os : list (option nat)),
      flat_map (fun n => match n with Some (S n') => [str_of_nat (S n')] | _ => [] end) os =
      map str_of_nat (filter (fun n => negb (Nat.eqb n 0)) (flat_map (fun o => match o with Some n => [n] | None => [] end) os))).
    { induction os as [|[[|n]|] os IH]; cbn [flat_map app filter map Nat.eqb negb]; [reflexivity|exact IH| |exact IH].
      f_equal. exact IH. }
    etransitivity; [|exact (G [label_number (deref ls (part_link (l_links l))); label_number (deref ls (chapter_link (l_links l)));
       label_number (deref ls (section_link (l_links l))); label_number (deref ls (subsection_link (l_links l)));
       label_number (deref ls (subsubsection_link (l_links l)))])].
    reflexivity.
Qed.

(** C18 (finding): when documents change places, a label keeps the link to a
    heading that no longer comes before it. *)
Theorem C18_links_refuted :
  ~ (forall h e a l b v u,
       m_registered (run h) = false ->
       values (m_labels (register e (run h))) = a ++ l :: b -> l_content l = true -> link v l = Some u ->
       exists x, encloses (content (a ++ [l])) v x /\ l_uid x = u).
Proof.
  intros H.
  pose (ch := Some [lit "heading"; lit "chapter"]). pose (sec := Some [lit "heading"; lit "section"]).
  pose (h := [OAdd (lit "c") ch true None (Some (lit "a.dm")); OAdd (lit "s") sec true None (Some (lit "b.dm"));
              ORegister (Env None None (Some [lit "a.dm"; lit "b.dm"]));
              OAdd (lit "t") sec true None (Some (lit "b.dm"))]).
  pose (e := Env None None (Some [lit "b.dm"; lit "a.dm"])).
  pose (ls := values (m_labels (register e (run h)))).
  specialize (H h e [] (hd (Label 0 [] [] None true None no_links) ls) (tl ls) Chapter 0 eq_refl eq_refl eq_refl eq_refl).
  destruct H as (x & (a & b & E & _) & Hu).
  vm_compute in E. destruct a as [|y a]; [|destruct a; discriminate E].
  injection E as E _. subst x. vm_compute in Hu. discriminate Hu.
Qed.

(** ** Labels by kind *)
Lemma filter_r_ok k ls : (forall l, In l ls -> l_kind l <> None) ->
  filter_r (kind_in k) ls = Ok (filter (fun l => match l_kind l with Some ks => mem k ks | None => false end) ls).
Proof.
  induction ls as [|l ls IH]; intros H; [reflexivity|]. cbn [filter_r filter]. unfold kind_in at 1.
  assert (Hl := H l (or_introl eq_refl)). destruct (l_kind l) as [ks|]; [|congruence]. cbn [bind].
  rewrite IH by (intros x Hx; apply H; right; exact Hx). cbn [bind]. reflexivity.
Qed.
Lemma by_kinds_ok kinds ls : (forall l, In l ls -> l_kind l <> None) ->
  by_kinds kinds ls = Ok (flat_map (fun k => filter (fun l => match l_kind l with Some ks => mem k ks | None => false end) ls) kinds).
Proof.
  intros H. induction kinds as [|k kinds IH]; [reflexivity|]. cbn [by_kinds flat_map].
  rewrite filter_r_ok by exact H. cbn [bind]. rewrite IH. reflexivity.
Qed.

Definition of_document (doc : option str) (l : label) : Prop := match doc with Some d => l_doc l = d | None => True end.

(** C19: listing by kinds gives the labels (of the document) with one of the
    kinds, and no others.  Listing without kinds gives all. *)
Theorem C19_complete :
  forall h e doc kinds,
    let found := get_labels_by_kind e doc kinds (run h) in
    (forall l, In l (values (m_labels (snd found))) -> l_kind l <> None) ->
    exists ls, fst found = Ok ls /\
      forall l, In l ls <-> In l (values (m_labels (snd found))) /\ of_document doc l /\ (kinds = [] \/ has_kind kinds l).
Proof.
  intros h e doc kinds found Hk. unfold found, get_labels_by_kind in *. cbn [fst snd] in *.
  set (V := values (m_labels (register e (run h)))) in *.
  set (D := match doc with Some d => filter (fun l => eqb (l_doc l) d) V | None => V end).
  assert (HD : forall l, In l D <-> In l V /\ of_document doc l).
  { intros l. unfold D, of_document. destruct doc as [d|]; [|tauto]. rewrite filter_In.
    destruct (eqb_spec (l_doc l) d); intuition congruence. }
  destruct kinds as [|k0 kinds].
  - exists D. split; [reflexivity|]. intros l. rewrite HD. intuition.
  - set (ks0 := k0 :: kinds) in *. eexists. split; [apply by_kinds_ok|].
    + intros l Hl. apply Hk. apply HD. exact Hl.
    + intros l. rewrite in_flat_map. split.
      * intros (k & Hin & Hl). apply filter_In in Hl as [Hl Hm]. apply HD in Hl as [Hl1 Hl2].
        split; [exact Hl1|]. split; [exact Hl2|]. right. destruct (l_kind l) as [ks|] eqn:El; [|discriminate].
        exists ks, k. split; [exact El|]. split; [apply mem_In; exact Hm|exact Hin].
      * intros (Hl1 & Hl2 & [C|(ks & k & El & H1 & H2)]); [discriminate C|]. exists k. split; [exact H2|].
        apply filter_In. split; [apply HD; auto|]. rewrite El. apply mem_In. exact H1.
Qed.

(** C19: each label is listed once, provided that no kind is asked for twice and
    that no label has two of the kinds. *)
Theorem C19_once_partial :
  forall h e doc kinds ls,
    NoDup kinds ->
    (forall l ks k k', In l (values (m_labels (register e (run h)))) -> l_kind l = Some ks ->
       In k ks -> In k' ks -> In k kinds -> In k' kinds -> k = k') ->
    (forall l, In l (values (m_labels (register e (run h)))) -> l_kind l <> None) ->
    fst (get_labels_by_kind e doc kinds (run h)) = Ok ls -> NoDup ls.
Proof.
  intros h e doc kinds ls Hn Hone Hk E. unfold get_labels_by_kind in E. cbn [fst] in E.
  destruct (Inv_register e _ (Inv_run h)) as (_ & _ & Hu & _).
  set (V := values (m_labels (register e (run h)))) in *.
  assert (HV : NoDup V) by (eapply NoDup_map_inv; exact Hu).
  set (D := match doc with Some d => filter (fun l => eqb (l_doc l) d) V | None => V end) in *.
  assert (HD : NoDup D) by (unfold D; destruct doc; [apply NoDup_filter|]; exact HV).
  assert (HDV : incl D V) by (unfold D; intros x; destruct doc; [rewrite filter_In; tauto|auto]).
  destruct kinds as [|k0 kinds]; [injection E as <-; exact HD|].
  rewrite by_kinds_ok in E by (intros l Hl; apply Hk, HDV, Hl). apply Ok_inj in E. rewrite <- E.
  clear E ls. clearbody D. clear HV. revert Hn Hone. generalize (k0 :: kinds). clear k0 kinds. intros kinds.
  induction kinds as [|k kinds IH]; intros Hn Hone; [constructor|]. apply NoDup_cons_iff in Hn as [Hni Hn].
  cbn [flat_map]. apply NoDup_app_iff. split; [apply NoDup_filter; exact HD|]. split.
  - apply IH; [exact Hn|]. intros l ks k1 k2 H1 H2 H3 H4 H5 H6. apply (Hone l ks k1 k2); auto; right; assumption.
  - intros l Hl Hl'. apply filter_In in Hl as [Hl Hm]. apply in_flat_map in Hl' as (k' & Hk' & Hl').
    apply filter_In in Hl' as [_ Hm']. destruct (l_kind l) as [ks|] eqn:El; [|discriminate].
    apply mem_In in Hm, Hm'. apply Hni.
    assert (k = k') by (apply (Hone l ks k k'); [apply HDV; exact Hl|exact El|exact Hm|exact Hm'|left; reflexivity|right; exact Hk']).
    subst k'. exact Hk'.
Qed.

(** C19 (finding): a label with two of the kinds is listed twice. *)
Theorem C19_once_refuted :
  ~ (forall h e doc kinds ls, NoDup kinds -> fst (get_labels_by_kind e doc kinds (run h)) = Ok ls -> NoDup ls).
Proof.
  intros H.
  pose (h := [OAdd (lit "c") (Some [lit "heading"; lit "chapter"]) true None (Some (lit "a.dm"))]).
  pose (l := Label 0 (lit "a.dm") (lit "c") (Some [lit "heading"; lit "chapter"]) true (Some [1; 1])
                   (Links None (Some 0) None None None)).
  specialize (H h (Env None None None) None [lit "heading"; lit "chapter"] [l; l]).
  assert (Hn : NoDup [l; l]).
  { apply H; [|reflexivity]. constructor; [intros [E|[]]; discriminate|constructor; [intros []|constructor]]. }
  apply NoDup_cons_iff in Hn as [Hn _]. apply Hn. left. reflexivity.
Qed.

(** A project with two documents; the labels of the second were added first. *)
Definition ex_history : list op :=
  [OAdd (lit "s2") (Some [lit "heading"; lit "section"]) true None (Some (lit "b.dm"));
   OAdd (lit "b.dm::f1") (Some [lit "figure"]) true None (Some (lit "b.dm"));
   OAdd (lit "c1") (Some [lit "heading"; lit "chapter"]) true None (Some (lit "a.dm"));
   OAdd (lit "s1") (Some [lit "heading"; lit "section"]) true None (Some (lit "a.dm"));
   OAdd (lit "s1") (Some [lit "heading"; lit "section"]) true None (Some (lit "a.dm"));
   OAdd (lit "x") (Some [lit "figure"]) true None (Some (lit "old.dm"))].
Definition ex_env : env :=
  Env None (Some [(lit "chapter", [lit "section"; lit "figure"])]) (Some [lit "a.dm"; lit "b.dm"]).
Example C13_C19_ex :
  map (fun l => (l_doc l, l_id l, l_order l, tree_number (m_labels (register ex_env (run ex_history))) l))
      (values (m_labels (register ex_env (run ex_history)))) =
  [(lit "a.dm", lit "c1", Some [1; 1], lit "1"); (lit "a.dm", lit "s1", Some [2; 1], lit "1.1");
   (lit "b.dm", lit "s2", Some [3; 2], lit "1.2"); (lit "b.dm", lit "f1", Some [1], lit "1.2")].
Proof. reflexivity. Qed.
Example C18_ex_fresh : fresh (run ex_history).
Proof. split; [reflexivity|]. intros l Hl. vm_compute in Hl. repeat (destruct Hl as [<-|Hl]; [reflexivity|]). destruct Hl. Qed.
Example C14_ex_names : names_both (lit "::") (lit "b.dm::f1") (lit "b.dm") (lit "f1").
Proof.
  split; [reflexivity|]. intros a b E.
  do 8 (destruct a as [|? a]; [first [discriminate E | injection E as <-; auto]|injection E as <- E; try discriminate E]).
  destruct a; discriminate E.
Qed.

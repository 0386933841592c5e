(** C01, C02, C03: tag attributes. *)
From Coq Require Import List Bool Arith Lia NArith.
From Verif.Base Require Import Str StrFacts ListFacts Dict DictFacts Result.
From Verif.Model Require Import ListUtils Attributes.
From Verif.Spec Require Import Attributes.
From Verif.Proof Require Import Attributes.
Import ListNotations.

(** * C01 *)

(** The entry found for a name and a target is the target-specific entry if
    there is one, else the general entry, else nothing.  The target may be
    written with any dots around it. *)
Theorem C01_find_item_precedence :
  forall (d : attrs) (k t : str) (n m : nat), bare_target t ->
    find_item d (RKey k) (Some (dots n ++ t ++ dots m)) =
    match lookup (for_target k t) d with
    | Some v => Some (for_target k t, v)
    | None => match lookup k d with Some v => Some (k, v) | None => None end
    end.
Proof.
  intros d k t n m Hb. rewrite find_item_key, norm_target_dots by exact Hb. reflexivity.
Qed.

(** Without a target the general entry is found. *)
Theorem C01_find_item_no_target :
  forall (d : attrs) (k : str),
    find_item d (RKey k) None = match lookup k d with Some v => Some (k, v) | None => None end.
Proof. reflexivity. Qed.

(** The value returned by [get] is that of the entry found, or the default,
    provided the value does not itself end like a target-specific name
    (see the refutation below). *)
Theorem C01_get_precedence_partial :
  forall (d : attrs) (k t : str) (n m : nat) (default : aval), bare_target t ->
    (forall k' v, lookup k' d = Some v -> clean_value v) ->
    get d (RKey k) (Some (dots n ++ t ++ dots m)) default =
      match pick d (Some t) k with Some v => v | None => default end /\
    get d (RKey k) None default =
      match pick d None k with Some v => v | None => default end.
Proof.
  intros d k t n m default Hb Hc. unfold get.
  rewrite C01_find_item_precedence by exact Hb. rewrite C01_find_item_no_target.
  unfold pick. split.
  - destruct (lookup (for_target k t) d) as [v|] eqn:E1.
    + apply strip_val_clean. eauto.
    + destruct (lookup k d) as [v|] eqn:E2; [|reflexivity]. apply strip_val_clean. eauto.
  - destruct (lookup k d) as [v|] eqn:E2; [|reflexivity]. apply strip_val_clean. eauto.
Qed.

(** An entry for another target is never found for a plain name. *)
Theorem C01_other_target_never :
  forall (d : attrs) (k k' t : str) (v : aval), bare_target t ->
    find_item d (RKey k) (Some t) = Some (k', v) ->
    (k' = k \/ k' = for_target k t) /\
    (plain k -> forall u, known_target u -> u <> t -> k' <> for_target k u).
Proof.
  intros d k k' t v Hb E. rewrite find_item_key, norm_target_bare in E by exact Hb.
  assert (Hk : k' = k \/ k' = for_target k t).
  { unfold find_key in E. destruct (lookup (for_target k t) d) as [w|].
    - injection E as <- _. auto.
    - destruct (lookup k d) as [w|]; [|discriminate]. injection E as <- _. auto. }
  split; [exact Hk|]. intros Hp u Hu Hne Eu. destruct Hk as [->| ->].
  - apply (Hp k u Hu). exact Eu.
  - apply for_target_inj in Eu as [_ E']; [congruence|exact Hb|apply known_bare; exact Hu].
Qed.

(** Finding: [get] also strips the terminator of the value it returns, so a
    value such as a file name ending in '.tex' is not returned as written. *)
Theorem C01_get_value_refuted :
  ~ (forall (d : attrs) (k t : str) (v default : aval), bare_target t ->
       pick d (Some t) k = Some v -> get d (RKey k) (Some t) default = v).
Proof.
  intros H.
  specialize (H [(lit "src", VStr (lit "fig.tex"))] (lit "src") (lit "html")
                (VStr (lit "fig.tex")) (VStr [])).
  assert (Hb : bare_target (lit "html")) by (cbn; unfold bare_target; cbn; intuition discriminate).
  specialize (H Hb eq_refl). vm_compute in H. discriminate.
Qed.

(** Positional values: with a target, the first one of the kind whose name ends with the target is found; without a target,
    the first one that is not specific to a target; otherwise the first one of the kind. *)
Lemma kind_spec q (kv : str * aval) : (match snd kv with VPos p => subclass p q | _ => false end) = true <-> of_kind q (snd kv).
Proof.
  destruct kv as [k v]. cbn [snd]. split.
  - destruct v as [x|p|o]; try discriminate. intros H. exists p. split; [reflexivity|].
    destruct q, p; try discriminate H; auto.
  - intros (p & -> & [->| ->]); [destruct p|destruct q]; reflexivity.
Qed.
Lemma filter_head {A} (f : A -> bool) before x after : (forall y, In y before -> f y = false) -> f x = true ->
  exists r, filter f (before ++ x :: after) = x :: r.
Proof.
  intros H Hx. induction before as [|y l IH].
  - cbn [app filter]. rewrite Hx. eexists. reflexivity.
  - cbn [app filter]. rewrite (H y) by now left. apply IH. intros z Hz. apply H. now right.
Qed.
Lemma filter_none {A} (f : A -> bool) l : (forall y, In y l -> f y = false) -> filter f l = nil.
Proof.
  intros H. induction l as [|y l IH]; [reflexivity|]. cbn [filter]. rewrite (H y) by now left. apply IH. intros z Hz. apply H. now right.
Qed.
Lemma filter_both {A} (f g : A -> bool) l : filter g (filter f l) = filter (fun x => f x && g x) l.
Proof. induction l as [|x l IH]; [reflexivity|]. cbn [filter]. destruct (f x); cbn [filter andb]; [destruct (g x)|]; now rewrite IH. Qed.
Lemma find_positional d q t : written d ->
  find_item d (RPos q) t =
  let f := fun kv : str * aval => match snd kv with VPos p => subclass p q | _ => false end in
  let g := match norm_target t with
           | Some (c :: u) => fun kv => endswith (fst kv) (c :: u)
           | _ => fun kv : str * aval => negb (is_target_specific (fst kv)) end in
  match filter (fun kv => f kv && g kv) d, filter f d with
  | kv :: _, _ => Some kv | nil, kv :: _ => Some kv | nil, nil => None end.
Proof.
  intros H. unfold find_item.
  assert (E : match norm_target t with
              | Some u => match lookup (join sep [areq_str (RPos q); u]) d with Some v => Some (join sep [areq_str (RPos q); u], v) | None => None end
              | None => None end = None).
  { destruct (norm_target t) as [u|]; [|reflexivity]. destruct (lookup _ d) as [v|] eqn:E; [|reflexivity].
    exfalso. apply lookup_In in E. apply (H _ _ E). destruct q; now left. }
  cbv zeta. rewrite E. cbv iota beta. rewrite <- !filter_both. destruct (norm_target t) as [[|c u]|]; reflexivity.
Qed.
Theorem C01_positional_target :
  forall (d : attrs) (q : ptype) (t k : str) (v : aval) n m, written d -> bare_target t -> t <> nil ->
    first_entry (fun k v => of_kind q v /\ ends_with t k) d k v ->
    find_item d (RPos q) (Some (dots n ++ t ++ dots m)) = Some (k, v).
Proof.
  intros d q t k v n m Hw Hb Ht (b & a & -> & (Hk & He) & Hn). rewrite find_positional by exact Hw. cbv zeta.
  rewrite norm_target_dots by exact Hb. destruct t as [|c u]; [congruence|].
  match goal with |- context [filter ?f (b ++ (k, v) :: a)] => destruct (filter_head f b (k, v) a) as [r E] end.
  - intros [k' v'] I. apply not_true_iff_false. intros E. apply andb_true_iff in E as [E1 E2].
    apply (Hn k' v' I). split; [now apply (kind_spec q (k', v'))|]. apply endswith_iff in E2. exact E2.
  - apply andb_true_iff. split; [now apply (kind_spec q (k, v))|]. apply endswith_iff. exact He.
  - now rewrite E.
Qed.
Theorem C01_positional_general :
  forall (d : attrs) (q : ptype) (t : option str) (k : str) (v : aval), written d ->
    (forall u, t = Some u -> bare_target u /\ u <> nil) ->
    (forall k v, In (k, v) d -> of_kind q v -> match t with Some u => ~ ends_with u k | None => ~ plain k end) ->
    first_entry (fun _ v => of_kind q v) d k v ->
    find_item d (RPos q) t = Some (k, v).
Proof.
  intros d q t k v Hw Ht Hn (b & a & -> & Hk & Hf). rewrite find_positional by exact Hw. cbv zeta.
  rewrite filter_none.
  - match goal with |- context [filter ?f (b ++ (k, v) :: a)] => destruct (filter_head f b (k, v) a) as [r E] end.
    + intros [k' v'] I. apply not_true_iff_false. intros E. apply (Hf k' v' I). now apply (kind_spec q (k', v')).
    + now apply (kind_spec q (k, v)).
    + now rewrite E.
  - intros [k' v'] I. apply not_true_iff_false. intros E. apply andb_true_iff in E as [E1 E2]. apply (kind_spec q (k', v')) in E1.
    specialize (Hn k' v' I E1). destruct t as [u|].
    + destruct (Ht u eq_refl) as [Hb Hu]. rewrite norm_target_bare in E2 by exact Hb. destruct u as [|c u]; [congruence|].
      apply endswith_iff in E2. exact (Hn E2).
    + cbn [norm_target] in E2. apply negb_true_iff in E2. apply Hn. now apply its_plain.
Qed.
Theorem C01_positional_no_target :
  forall (d : attrs) (q : ptype) (k : str) (v : aval), written d ->
    first_entry (fun k v => of_kind q v /\ plain k) d k v ->
    find_item d (RPos q) None = Some (k, v).
Proof.
  intros d q k v Hw (b & a & -> & (Hk & He) & Hn). rewrite find_positional by exact Hw. cbv zeta. cbn [norm_target].
  match goal with |- context [filter ?f (b ++ (k, v) :: a)] => destruct (filter_head f b (k, v) a) as [r E] end.
  - intros [k' v'] I. apply not_true_iff_false. intros E. apply andb_true_iff in E as [E1 E2].
    apply (Hn k' v' I). split; [now apply (kind_spec q (k', v'))|]. apply negb_true_iff in E2. now apply its_plain.
  - apply andb_true_iff. split; [now apply (kind_spec q (k, v))|]. apply negb_true_iff. now apply its_plain.
  - now rewrite E.
Qed.
Theorem C01_positional_none :
  forall (d : attrs) (q : ptype) (t : option str), written d ->
    (forall k v, In (k, v) d -> ~ of_kind q v) -> find_item d (RPos q) t = None.
Proof.
  intros d q t Hw Hn. rewrite find_positional by exact Hw. cbv zeta. rewrite !filter_none; [reflexivity| |];
    intros [k' v'] I; apply not_true_iff_false; intros E.
  - apply (Hn k' v' I). now apply (kind_spec q (k', v')).
  - apply andb_true_iff in E as [E _]. apply (Hn k' v' I). now apply (kind_spec q (k', v')).
Qed.
Example C01_positional_ex :
  let d := [(lit "ex", VPos PStr); (lit "3", VPos PInt); (lit "left.tex", VPos PStr); (lit "right.html", VPos PStr)] in
  written d /\ find_item d (RPos PStr) (Some (lit ".tex")) = Some (lit "left.tex", VPos PStr) /\
  find_item d (RPos PStr) (Some (lit ".css")) = Some (lit "ex", VPos PStr) /\
  find_item d (RPos PInt) None = Some (lit "3", VPos PInt).
Proof.
  split; [|repeat split]. intros k v I. cbn in I.
  repeat (destruct I as [E|I]; [injection E as <- _; cbn; intuition discriminate|]). destruct I.
Qed.

(** Finding: asked for a positional value, an entry written for another target
    is returned when there is no better one, and a target is recognised
    without its separating dot. *)
Theorem C01_positional_other_target_refuted :
  ~ (forall (d : attrs) (p u t : str) (q : ptype), known_target t -> known_target u -> u <> t ->
       get d (RPos q) (Some t) (VStr []) = VStr p -> lookup (for_target p u) d = None).
Proof.
  intros H.
  specialize (H [(lit "left.html", VPos PStr)] (lit "left") (lit "html") (lit "tex") PAny).
  assert (H1 : known_target (lit "tex")) by (unfold known_target; auto).
  assert (H2 : known_target (lit "html")) by (unfold known_target; auto).
  specialize (H H1 H2 ltac:(discriminate) eq_refl). discriminate.
Qed.
Theorem C01_positional_separator_refuted :
  ~ (forall (d : attrs) (p t : str), known_target t ->
       lookup (for_target p t) d = Some (VPos PStr) ->
       (forall p', p' <> p -> lookup (for_target p' t) d = None) ->
       get d (RPos PStr) (Some t) (VStr []) = VStr p).
Proof.
  intros H.
  specialize (H [(lit "latex", VPos PStr); (lit "fig.tex", VPos PStr)] (lit "fig") (lit "tex")).
  assert (H1 : known_target (lit "tex")) by (unfold known_target; auto).
  assert (H2 : forall p' : str, p' <> lit "fig" -> lookup (for_target p' (lit "tex"))
      [(lit "latex", VPos PStr); (lit "fig.tex", VPos PStr)] = None).
  { intros p' Hp. cbn [lookup]. destruct (eqb_spec (for_target p' (lit "tex")) (lit "latex")) as [E|_].
    - exfalso. assert (Hin : In 46%N (lit "latex")).
      { rewrite <- E. apply in_app_iff. right. left. reflexivity. }
      cbn in Hin. intuition discriminate.
    - destruct (eqb_spec (for_target p' (lit "tex")) (lit "fig.tex")) as [E|_]; [|reflexivity].
      exfalso. apply Hp. change (lit "fig.tex") with (for_target (lit "fig") (lit "tex")) in E.
      apply for_target_inj in E; [tauto| |]; apply known_bare; exact H1. }
  specialize (H H1 eq_refl H2). vm_compute in H. discriminate.
Qed.

(** Non-vacuity: the documented example. *)
Definition ex_attrs : attrs :=
  [(lit "class", VStr (lit "general")); (lit "class.html", VStr (lit "specific"));
   (lit "pos", VPos PStr)].
Example C01_ex :
  bare_target (lit "html") /\
  (forall k v, lookup k ex_attrs = Some v -> clean_value v) /\
  get ex_attrs (RKey (lit "class")) (Some (lit ".html")) (VStr []) = VStr (lit "specific") /\
  get ex_attrs (RKey (lit "class")) (Some (lit "tex")) (VStr []) = VStr (lit "general") /\
  get ex_attrs (RKey (lit "missing")) (Some (lit "tex")) (VStr []) = VStr [].
Proof.
  split; [cbn; unfold bare_target; cbn; intuition discriminate|].
  split; [|repeat split].
  intros k v E. apply lookup_In in E. simpl in E.
  destruct E as [[= _ <-]|[[= _ <-]|[[= _ <-]|[]]]]; simpl; auto; apply its_plain; reflexivity.
Qed.

(** * C02 *)

(** Filtering by plain names for a target: exactly the requested entries that
    are present, each once, under their plain names, with the target-specific
    value if there is one. *)
Theorem C02_filter_by_names :
  forall (d : attrs) (ks : list str) (t : option str) (sort_by_attrs : bool),
    wf d -> Forall plain ks -> (forall u, t = Some u -> known_target u) ->
    ~ In (lit "self") ks ->
    filter_attrs d (Some (map RKey ks)) t sort_by_attrs true =
    Ok (expected d t (if sort_by_attrs then uniq ks else default_order d (uniq ks))).
Proof.
  intros d ks t sorted Hw Hp Ht Hself.
  destruct (filter_names_raw d ks t sorted Hw Hp Ht) as (E & Hwr & Hp' & Hnd).
  rewrite (filter_attrs_strip _ _ _ _ _ E).
  set (ks' := if sorted then uniq ks else default_order d (uniq ks)) in *.
  rewrite <- (raw_expected_strip d t ks' Ht Hp').
  assert (Hstrip : forall a, In a ks' -> strip_attr (found_key d t a) = a).
  { intros a Ha. rewrite Forall_forall in Hp'. specialize (Hp' a Ha).
    unfold found_key. destruct t as [u|]; [|apply strip_attr_plain; exact Hp'].
    destruct (lookup (for_target a u) d); [apply strip_attr_for_target, Ht; reflexivity|].
    apply strip_attr_plain; exact Hp'. }
  apply strip_attrs_ok.
  - exact Hwr.
  - intros Hin. apply raw_expected_keys in Hin as (a & Ha & Ea).
    pose proof (Hstrip a Ha) as Hs. rewrite <- Ea in Hs. vm_compute in Hs. subst a.
    apply Hself. unfold ks' in Ha. destruct sorted.
    + apply (proj1 (uniq_In ks _)). exact Ha.
    + apply (proj1 (uniq_In ks _)). apply (default_order_In d (uniq ks)). exact Ha.
  - intros k Hk. apply raw_expected_keys in Hk as (a & Ha & ->). rewrite Hstrip by exact Ha.
    rewrite Forall_forall in Hp'. auto.
  - replace (map strip_attr (keys (raw_expected d t ks'))) with (keys (expected d t ks')).
    + apply expected_wf. exact Hnd.
    + rewrite <- (raw_expected_strip d t ks' Ht Hp'). unfold keys. rewrite !map_map. reflexivity.
Qed.

(** What the expected entries are: each requested name once, with the picked
    value, and nothing else. *)
Theorem C02_filter_entries :
  forall (d : attrs) (ks : list str) (t : option str) (sort_by_attrs : bool) (r : attrs),
    wf d -> Forall plain ks -> (forall u, t = Some u -> known_target u) ->
    ~ In (lit "self") ks ->
    filter_attrs d (Some (map RKey ks)) t sort_by_attrs true = Ok r ->
    wf r /\ forall k, lookup k r = if mem k ks then pick d t k else None.
Proof.
  intros d ks t sorted r Hw Hp Ht Hself E.
  rewrite C02_filter_by_names in E by assumption. injection E as <-.
  set (ks' := if sorted then uniq ks else default_order d (uniq ks)).
  assert (Hnd : NoDup ks').
  { unfold ks'. destruct sorted; [apply uniq_NoDup|apply default_order_NoDup; [exact Hw|apply uniq_NoDup]]. }
  assert (Hin : forall k, In k ks' <-> In k ks).
  { intros k. unfold ks'. destruct sorted; [apply uniq_In|].
    rewrite default_order_In. apply uniq_In. }
  split; [apply expected_wf; exact Hnd|]. intros k.
  replace (mem k ks) with (mem k ks') by (apply eq_true_iff_eq; rewrite !mem_In; apply Hin).
  clearbody ks'. clear - Hnd. unfold expected. induction ks' as [|a l IH]; simpl; [reflexivity|].
  apply NoDup_cons_iff in Hnd as [Hni Hnd]. specialize (IH Hnd).
  destruct (eqb_spec k a) as [->|Hne]; simpl.
  - destruct (pick d t a) as [v|] eqn:Ep; simpl; [rewrite eqb_refl; reflexivity|].
    rewrite IH. destruct (mem a l) eqn:Em; [apply mem_In in Em; contradiction|reflexivity].
  - destruct (pick d t a) as [v|]; simpl; [|exact IH].
    destruct (eqb_spec k a); [contradiction|exact IH].
Qed.

(** Filtering all attributes for a target: a plain name is present exactly if
    it has an entry, with the picked value, and the entries keep the order of
    the tag's attributes. *)
Theorem C02_filter_all :
  forall (d : attrs) (t : str) (sort_by_attrs : bool),
    wf d -> known_target t -> ~ In (lit "self") (map fst d) ->
    (forall p u, known_target u -> In (for_target p u) (map fst d) -> plain p) ->
    exists r, filter_attrs d None (Some t) sort_by_attrs true = Ok r /\ wf r /\
      (forall p v, lookup p r = Some v <-> plain p /\ pick d (Some t) p = Some v) /\
      in_attribute_order d t (map fst r).
Proof.
  intros d t sorted Hw Ht Hself Hdbl.
  assert (Hpl : forall k, In k (keys d) -> plain (strip_attr k)).
  { intros k Hk. destruct (plain_dec k) as [Hp|(p & u & Hu & ->)].
    - rewrite strip_attr_plain; assumption.
    - rewrite strip_attr_for_target by exact Hu. eapply Hdbl; eauto. }
  pose proof (filter_all_keys_raw d t sorted Hw Ht Hpl) as E.
  rewrite (filter_attrs_strip _ _ _ _ _ E).
  assert (Hkw : wf (kept d (Some t))).
  { assert (G : forall f (l : attrs), NoDup (map fst l) -> NoDup (map fst (filter f l))).
    { clear. induction l as [|[k v] l IH]; simpl; intros Hn; [constructor|].
      apply NoDup_cons_iff in Hn as [Hni Hn]. destruct (f (k, v)); simpl; [|auto].
      constructor; [|auto]. intros Hin. apply Hni. apply in_map_iff in Hin as (e & <- & He).
      apply filter_In in He as [He _]. apply in_map. exact He. }
    apply G. exact Hw. }
  assert (Hsub : incl (keys (kept d (Some t))) (keys d)).
  { intros k Hk. apply in_map_iff in Hk as ([k' v] & <- & Hk). apply filter_In in Hk as [Hk _].
    apply in_map. exact Hk. }
  assert (Hinj : forall x y, In x (keys (kept d (Some t))) -> In y (keys (kept d (Some t))) ->
                 strip_attr x = strip_attr y -> x = y).
  { intros x y Hx Hy Exy.
    apply in_map_iff in Hx as ([x' vx] & Ex & Hx). apply in_map_iff in Hy as ([y' vy] & Ey & Hy).
    simpl in Ex, Ey. subst x' y'.
    pose proof Hx as Hx0. pose proof Hy as Hy0.
    apply kept_In in Hx0 as (Hx1 & Hx2 & Hx3); [|exact Hw|exact Ht].
    apply kept_In in Hy0 as (Hy1 & Hy2 & Hy3); [|exact Hw|exact Ht].
    apply (in_map fst) in Hx1. apply (in_map fst) in Hy1. simpl in Hx1, Hy1.
    destruct Hx2 as [[p ->]|Px]; destruct Hy2 as [[q ->]|Py].
    - rewrite !strip_attr_for_target in Exy by exact Ht. congruence.
    - rewrite strip_attr_for_target in Exy by exact Ht. rewrite strip_attr_plain in Exy by exact Py.
      subst p. contradiction.
    - rewrite strip_attr_for_target in Exy by exact Ht. rewrite strip_attr_plain in Exy by exact Px.
      subst q. contradiction.
    - rewrite !strip_attr_plain in Exy by assumption. exact Exy. }
  rewrite strip_attrs_ok.
  2: exact Hkw.
  2: { intros Hin. apply Hself. apply Hsub. exact Hin. }
  2: { intros k Hk. apply Hpl. apply Hsub. exact Hk. }
  2: { apply NoDup_map_inj; [exact Hkw|exact Hinj]. }
  eexists. split; [reflexivity|].
  assert (Hrw : wf (map (fun kv : str * aval => (strip_attr (fst kv), snd kv)) (kept d (Some t)))).
  { unfold wf, keys. rewrite map_map. simpl. rewrite <- (map_map fst strip_attr).
    apply NoDup_map_inj; [exact Hkw|exact Hinj]. }
  split; [exact Hrw|]. split.
  - intros p v. split.
    + intros El. apply lookup_In in El. apply in_map_iff in El as ([k w] & Ek & Hk).
      simpl in Ek. injection Ek as <- <-.
      pose proof Hk as Hk0. apply kept_In in Hk0 as (H1 & H2 & H3); [|exact Hw|exact Ht].
      split.
      * apply Hpl. apply (in_map fst) in H1. exact H1.
      * unfold pick. destruct H2 as [[p ->]|Pk].
        -- rewrite strip_attr_for_target by exact Ht. rewrite (In_lookup _ _ _ Hw H1). reflexivity.
        -- rewrite strip_attr_plain by exact Pk. apply lookup_None in H3. rewrite H3.
           apply In_lookup; assumption.
    + intros [Pp Hpick]. apply In_lookup; [exact Hrw|]. apply in_map_iff. unfold pick in Hpick.
      destruct (lookup (for_target p t) d) as [w|] eqn:E1.
      * injection Hpick as <-. exists (for_target p t, w). simpl.
        rewrite strip_attr_for_target by exact Ht. split; [reflexivity|].
        apply kept_In; [exact Hw|exact Ht|]. apply lookup_In in E1. split; [exact E1|].
        split; [left; eauto|]. intros Hin. apply (Hdbl _ _ Ht) in Hin.
        apply (Hin p t Ht). reflexivity.
      * exists (p, v). simpl. rewrite strip_attr_plain by exact Pp. split; [reflexivity|].
        apply kept_In; [exact Hw|exact Ht|]. apply lookup_In in Hpick. split; [exact Hpick|].
        split; [right; exact Pp|]. apply lookup_None. exact E1.
  - exists (keys (kept d (Some t))). split.
    + unfold kept, keys. apply subseq_map, subseq_filter.
    + rewrite map_map. simpl. unfold keys.
      assert (G : forall l, (forall k v, In (k, v) l -> In (k, v) (kept d (Some t))) ->
        Forall2 (fun k p => k = p \/ k = for_target p t) (map fst l)
          (map (fun x : str * aval => strip_attr (fst x)) l)).
      { induction l as [|[k v] l IH]; intros Hl; simpl; constructor.
        - specialize (Hl k v (or_introl eq_refl)). apply kept_In in Hl as (_ & Hk & _); [|exact Hw|exact Ht].
          destruct Hk as [[p ->]|Pk].
          + rewrite strip_attr_for_target by exact Ht. auto.
          + rewrite strip_attr_plain by exact Pk. auto.
        - apply IH. intros k' v' Hk'. apply Hl. right. exact Hk'. }
      apply G. auto.
Qed.

(** Whatever is requested (names or positional kinds), nothing is invented:
    every entry returned is an entry of the tag that was requested, and no
    name occurs twice. *)
Theorem C02_filter_sound :
  forall (d : attrs) (reqs : list areq) (t : str) (sort_by_attrs : bool) (r : attrs),
    wf d -> bare_target t ->
    filter_attrs d (Some reqs) (Some t) sort_by_attrs true = Ok r ->
    wf r /\ forall p v, lookup p r = Some v ->
      exists k a, lookup k d = Some v /\ In a reqs /\ requested d (Some t) a k /\
                  (k = p \/ exists u, known_target u /\ k = for_target p u).
Proof.
  intros d reqs t sorted r Hw Hb E.
  destruct (filter_attrs d (Some reqs) (Some t) sorted false) as [out|e] eqn:E0; [|discriminate].
  rewrite (filter_attrs_strip _ _ _ _ _ E0) in E. split; [eapply strip_attrs_wf; eauto|].
  intros p v El. destruct (strip_attrs_sound _ _ _ _ E El) as (k & Ek & Hk).
  apply filter_attrs_collect in E0 as (rq & Hrq & ->).
  rewrite norm_target_bare in Hk by exact Hb.
  apply collect_sound in Hk; [|exact Hw]. rewrite norm_target_bare in Hk by exact Hb.
  destruct Hk as [Hk|(H1 & a & H2 & H3)]; [discriminate|].
  exists k, a. split; [exact H1|]. split; [auto|]. split; [exact H3|].
  destruct (strip_attr_cases k) as [Es|(u & Hu & Es)].
  - left. congruence.
  - right. exists u. split; [exact Hu|]. congruence.
Qed.

(** Finding: the default order is not the order of the tag's attributes when a
    requested name has only a target-specific entry. *)
Theorem C02_attribute_order_refuted :
  ~ (forall (d : attrs) (ks : list str) (t : str) (r : attrs),
       wf d -> Forall plain ks -> known_target t ->
       filter_attrs d (Some (map RKey ks)) (Some t) false true = Ok r ->
       in_attribute_order d t (map fst r)).
Proof.
  intros H.
  set (d := [(lit "width.tex", VStr (lit "1")); (lit "class", VStr (lit "c"))]).
  specialize (H d [lit "width"; lit "class"] (lit "tex")
     [(lit "class", VStr (lit "c")); (lit "width", VStr (lit "1"))]).
  destruct H as (ks & Hs & Hf).
  - repeat constructor; cbn; intuition discriminate.
  - repeat constructor; apply its_plain; reflexivity.
  - unfold known_target; auto.
  - reflexivity.
  - simpl in Hf. inversion Hf as [|k1 p1 l1 l2 H1 Hf' ]; subst.
    inversion Hf' as [|k2 p2 l3 l4 H2 Hf'']; subst. inversion Hf''; subst. clear Hf Hf' Hf''.
    assert (Hl : [k1; k2] = [lit "width.tex"; lit "class"]).
    { cbn [d map fst] in Hs. inversion Hs as [|x a b Hs'|x a b Hs']; subst.
      - inversion Hs' as [|x a b Hs''|x a b Hs'']; subst; [reflexivity|inversion Hs''].
      - inversion Hs' as [|x a b Hs''|x a b Hs'']; subst; inversion Hs''. }
    injection Hl as -> ->. destruct H1 as [H1|H1]; vm_compute in H1; discriminate.
Qed.

(** Finding: a tag with an attribute called 'self' cannot be filtered. *)
Theorem C02_self_attribute_refuted :
  ~ (forall (d : attrs) (t : str), wf d -> known_target t ->
       exists r, filter_attrs d None (Some t) false true = Ok r).
Proof.
  intros H. destruct (H [(lit "self", VStr (lit "x"))] (lit "tex")) as [r E].
  - repeat constructor; cbn; tauto.
  - unfold known_target; auto.
  - vm_compute in E. discriminate.
Qed.

(** Non-vacuity *)
Definition ex_tgt : attrs :=
  [(lit "class", VStr (lit "one")); (lit "tgt", VStr (lit "default"));
   (lit "tgt.tex", VStr (lit "tex")); (lit "x.html", VStr (lit "h"))].
Example C02_ex :
  wf ex_tgt /\ Forall plain [lit "tgt"; lit "class"; lit "tgt"] /\
  filter_attrs ex_tgt (Some (map RKey [lit "tgt"; lit "class"; lit "tgt"])) (Some (lit "tex")) false true
    = Ok [(lit "class", VStr (lit "one")); (lit "tgt", VStr (lit "tex"))] /\
  filter_attrs ex_tgt (Some (map RKey [lit "tgt"; lit "class"; lit "tgt"])) (Some (lit "tex")) true true
    = Ok [(lit "tgt", VStr (lit "tex")); (lit "class", VStr (lit "one"))] /\
  filter_attrs ex_tgt None (Some (lit "tex")) false true
    = Ok [(lit "class", VStr (lit "one")); (lit "tgt", VStr (lit "tex"))] /\
  filter_attrs ex_tgt None None false true
    = Ok [(lit "class", VStr (lit "one")); (lit "tgt", VStr (lit "default"))] /\
  (forall p u, known_target u -> In (for_target p u) (map fst ex_tgt) -> plain p).
Proof.
  split; [repeat constructor; cbn; intuition discriminate|].
  split; [repeat constructor; apply its_plain; reflexivity|].
  do 4 (split; [reflexivity|]).
  intros p u Hu Hin. pose proof (strip_attr_for_target p u Hu) as E. revert E.
  simpl in Hin. destruct Hin as [E|[E|[E|[E|[]]]]]; rewrite <- E; intros <-; apply its_plain; reflexivity.
Qed.

(** * C03 *)

(** Attributes printed for html and loaded again are the same attributes, in
    the same order (for any Unicode word class and any numeric syntax). *)
Theorem C03_html_round_trip :
  forall (uw : char -> bool) (pv : str -> ptype) (d : attrs),
    wf d -> Forall (good_entry uw pv) d -> load uw pv [] (html d) = d.
Proof.
  intros uw pv d Hw Hg. unfold load. rewrite load_html by (exact Hg || lia).
  apply update_nil_wf. exact Hw.
Qed.

(** Loading never creates two entries with the same name, and a later value
    for a name replaces the earlier one. *)
Theorem C03_load_wf :
  forall (uw : char -> bool) (pv : str -> ptype) (d : attrs) (x : str),
    wf d -> wf (load uw pv d x).
Proof. intros. unfold load. apply wf_update. assumption. Qed.

(** The tex arguments are the texts of the entries, one brace group each, in
    order. *)
Theorem C03_tex_arguments :
  forall (d : attrs), (forall e, In e d -> ~ In 125%N (arg_text e)) ->
    split_c 125%N (tex_arguments d) = map (fun e => 123%N :: arg_text e) d ++ [[]].
Proof. apply tex_arguments_split. Qed.

(** The tex optionals are nothing for no entries, else the comma separated
    texts of the entries, in order, in brackets. *)
Theorem C03_tex_optionals :
  forall (d : attrs), (forall e, In e d -> ~ In 44%N (opt_text e)) ->
    match d with
    | [] => tex_optionals d = []
    | e :: r => exists inner, tex_optionals d = 91%N :: inner ++ [93%N] /\
                  split_c 44%N inner = opt_text e :: map (fun e => 32%N :: opt_text e) r
    end.
Proof.
  intros [|e r] Hn; [reflexivity|].
  exists (join (lit ", ") (map tex_opt (e :: r))). split; [reflexivity|].
  rewrite (map_ext tex_opt opt_text) by apply tex_opt_text. simpl map.
  rewrite join_comma_split.
  - rewrite map_map. reflexivity.
  - apply Hn. left. reflexivity.
  - intros x Hx. apply in_map_iff in Hx as (e' & <- & He'). apply Hn. right. exact He'.
Qed.

(** Finding: a value with a single quote does not survive. *)
Theorem C03_quote_refuted :
  ~ (forall (uw : char -> bool) (pv : str -> ptype) (k v : str),
       k <> [] -> (forall c, In c k -> is_word uw c = true) ->
       load uw pv [] (html [(k, VStr v)]) = [(k, VStr v)]).
Proof.
  intros H. specialize (H (fun _ => false) (fun _ => PStr) (lit "alt") (lit "it's")).
  assert (E : load (fun _ => false) (fun _ => PStr) [] (html [(lit "alt", VStr (lit "it's"))])
              = [(lit "alt", VStr (lit "it's"))]).
  { apply H; [discriminate|]. cbn. intuition subst; reflexivity. }
  vm_compute in E. discriminate.
Qed.

(** Non-vacuity *)
Definition ex_pv (x : str) : ptype := if forallb (fun c => N.leb 48 c && N.leb c 57) x then PInt else PStr.
Definition ex_html : attrs :=
  [(lit "class", VStr (lit "two words")); (lit "pos", VPos PStr); (lit "width.html", VStr (lit "5"));
   (lit "23.tex", VPos PInt)].
Example C03_ex :
  wf ex_html /\ Forall (good_entry (fun _ => false) ex_pv) ex_html /\
  html ex_html = lit "class='two words' pos width.html='5' 23.tex" /\
  load (fun _ => false) ex_pv [] (html ex_html) = ex_html /\
  tex_arguments ex_html = lit "{two words}{pos}{5}{23.tex}" /\
  tex_optionals ex_html = lit "[class=two words, pos, width.html=5, 23.tex]".
Proof.
  split; [repeat constructor; cbn; intuition discriminate|]. split; [|repeat split].
  assert (G : forall k p, is_target_specific k = false -> p = ex_pv k -> forall b,
     (plain k /\ b = k) \/ (exists t, known_target t /\ k = for_target b t) -> p = ex_pv b).
  { intros k p Hk Hp b [[_ ->]|(t & Ht & ->)]; [exact Hp|]. apply its_plain in Hk.
    exfalso. apply (Hk b t Ht). reflexivity. }
  assert (Hpos : forall k, forallb (fun c => negb (is_space c || mem c [44; 91; 93; 61; 34; 39]%N)) k = true ->
     forall c, In c k -> good_pos_char c).
  { intros k Hk c Hc. rewrite forallb_forall in Hk. specialize (Hk c Hc).
    apply negb_true_iff, orb_false_iff in Hk as [H1 H2]. split; [exact H1|].
    apply mem_not_In in H2. exact H2. }
  assert (Hkey : forall k, forallb (fun c => is_word (fun _ => false) c || N.eqb c 46) k = true ->
     forall c, In c k -> is_word (fun _ => false) c = true \/ c = 46%N).
  { intros k Hk c Hc. rewrite forallb_forall in Hk. specialize (Hk c Hc).
    apply orb_true_iff in Hk as [Hk|Hk]; [auto|]. right. apply N.eqb_eq. exact Hk. }
  apply Forall_cons; [|apply Forall_cons; [|apply Forall_cons; [|apply Forall_cons; [|apply Forall_nil]]]];
    (split; [discriminate|]); split.
  - apply Hkey. reflexivity.
  - apply mem_not_In. reflexivity.
  - apply Hpos. reflexivity.
  - apply G; reflexivity.
  - apply Hkey. reflexivity.
  - apply mem_not_In. reflexivity.
  - apply Hpos. reflexivity.
  - intros b [[Hp _]|(t & Ht & E)].
    + exfalso. apply (Hp (lit "23") (lit "tex")); [unfold known_target; auto|reflexivity].
    + pose proof (strip_attr_for_target b t Ht) as Es. rewrite <- E in Es. vm_compute in Es.
      subst b. reflexivity.
Qed.

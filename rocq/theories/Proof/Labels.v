(** Lemmas for Props/Labels.v *)
From Coq Require Import List Bool Arith NArith Lia Sorted Permutation.
From Verif.Base Require Import Str StrFacts ListFacts Dict DictFacts Sort SortFacts PyText PyTextFacts Result.
From Verif.Model Require Import ListUtils Attributes Labels.
From Verif.Spec Require Import Labels.
From Verif.Proof Require Import Attributes.
Import ListNotations.

Lemma cons_inj {A} (x y : A) l m : x :: l = y :: m -> x = y /\ l = m.
Proof. intros [= -> ->]. auto. Qed.

(** ** Dictionaries of labels as lists of labels *)
Definition tie (L : list label) : labels := map (fun l => (key_of l, l)) L.
Definition keyed (ls : labels) : Prop := ls = tie (values ls).

Lemma values_tie L : values (tie L) = L.
Proof. unfold values, tie. rewrite map_map. apply map_id. Qed.
Lemma keys_tie L : keys (tie L) = map key_of L.
Proof. unfold keys, tie. rewrite map_map. reflexivity. Qed.
Lemma keyed_tie L : keyed (tie L).
Proof. unfold keyed. rewrite values_tie. reflexivity. Qed.
Lemma wf_keyed ls : keyed ls -> wf ls <-> NoDup (map key_of (values ls)).
Proof. intros H. unfold wf. unfold keyed in H. rewrite H at 1. rewrite keys_tie. reflexivity. Qed.

(** ** Reordering *)
Lemma insert_ext {A} (f g : A -> A -> bool) x l : (forall y, In y l -> f x y = g x y) -> insert f x l = insert g x l.
Proof.
  induction l as [|y l IH]; intros H; simpl; [reflexivity|]. rewrite H by (left; reflexivity).
  destruct (g x y); [reflexivity|]. f_equal. apply IH. intros z Hz. apply H. right. exact Hz.
Qed.
Lemma insert_map {A B} (h : A -> B) (f : A -> A -> bool) (g : B -> B -> bool) x l :
  (forall y, In y l -> f x y = g (h x) (h y)) -> map h (insert f x l) = insert g (h x) (map h l).
Proof.
  induction l as [|y l IH]; intros H; simpl; [reflexivity|]. rewrite <- H by (left; reflexivity).
  destruct (f x y); [reflexivity|]. simpl. f_equal. apply IH. intros z Hz. apply H. right. exact Hz.
Qed.

Lemma reorder_sort ids L : forall n,
  map snd (isort (reorder_leb ids) (enumerate_from n L)) = sort_by (fun l => index_of (l_doc l) ids) L.
Proof.
  induction L as [|l L IH]; intros n; [reflexivity|].
  cbn [enumerate_from isort]. unfold sort_by. cbn [isort].
  rewrite (insert_map snd _ (fun x y => Nat.leb (index_of (l_doc x) ids) (index_of (l_doc y) ids))).
  - cbn [snd]. rewrite IH. reflexivity.
  - intros [m y] Hy. cbn [fst snd]. unfold reorder_leb. cbn [fst snd].
    assert (Hm : S n <= m).
    { eapply Permutation_in in Hy; [|apply isort_perm].
      clear -Hy. revert n Hy. induction L as [|z L IH]; intros n; [intros []|].
      intros [E|Hy]; [injection E as <- _; lia|]. apply IH in Hy. lia. }
    destruct (Nat.ltb_spec (index_of (l_doc l) ids) (index_of (l_doc y) ids));
      destruct (Nat.leb_spec (index_of (l_doc l) ids) (index_of (l_doc y) ids)); try lia; try reflexivity.
    + destruct (Nat.eqb_spec (index_of (l_doc l) ids) (index_of (l_doc y) ids)); [|lia]. apply Nat.leb_le. lia.
    + destruct (Nat.eqb_spec (index_of (l_doc l) ids) (index_of (l_doc y) ids)); [lia|reflexivity].
Qed.

Definition docs_of (docs : option (list str)) (L : list label) : list str :=
  match docs with Some ds => ds | None => map l_doc L end.
Definition arranged (ids : list str) (L : list label) : list label :=
  sort_by (fun l => index_of (l_doc l) ids) (filter (fun l => mem (l_doc l) ids) L).

Lemma arranged_perm ids L : Permutation (arranged ids L) (filter (fun l => mem (l_doc l) ids) L).
Proof. apply sort_by_perm. Qed.
Lemma arranged_NoDup {B} (f : label -> B) ids L : NoDup (map f L) -> NoDup (map f (arranged ids L)).
Proof.
  intros H. eapply Permutation_NoDup; [apply Permutation_map, Permutation_sym, arranged_perm|].
  clear -H. induction L as [|l L IH]; [constructor|]. cbn [map] in H. apply NoDup_cons_iff in H as [Hn H].
  cbn [filter]. destruct (mem (l_doc l) ids); [|auto]. cbn [map]. constructor; [|auto].
  intros Hi. apply Hn. apply in_map_iff in Hi as (x & <- & Hx). apply filter_In in Hx as [Hx _]. apply in_map. exact Hx.
Qed.

Lemma fold_set_tie (S : list (nat * label)) :
  NoDup (map (fun x => key_of (snd x)) S) ->
  fold_left (fun d x => set (key_of (snd x)) (snd x) d) S [] = tie (map snd S).
Proof.
  intros H. pose proof (update_nil_wf (tie (map snd S))) as E. unfold update in E.
  rewrite <- E at 1.
  - unfold tie. rewrite map_map. clear. generalize (@nil (label_key * label)).
    induction S as [|x S IH]; intros d; [reflexivity|]. cbn [map fold_left fst snd]. apply IH.
  - unfold wf. rewrite keys_tie, map_map. exact H.
Qed.

Lemma reorder_eq docs ls : wf ls -> keyed ls ->
  reorder docs ls = tie (arranged (docs_of docs (values ls)) (values ls)).
Proof.
  intros Hw Hk. unfold reorder. fold (docs_of docs (values ls)). set (ids := docs_of docs (values ls)).
  set (F := filter (fun l => mem (l_doc l) ids) (values ls)).
  pose proof (reorder_sort ids F 0) as E. fold (arranged ids (values ls)) in E.
  rewrite fold_set_tie; [|]; rewrite ?E; [reflexivity|].
  rewrite <- (map_map snd key_of), E. apply arranged_NoDup. apply wf_keyed; assumption.
Qed.

(** documents in the order of their first mention *)
Lemma arranged_flat ids L : NoDup ids ->
  arranged ids L = flat_map (fun d => filter (fun l => eqb (l_doc l) d) L) ids.
Proof.
  intros Hn. unfold arranged. apply sort_by_unique.
  - assert (G : forall ids', incl ids' ids -> StronglySorted (fun a b => index_of a ids <= index_of b ids) ids' ->
      StronglySorted (fun x y => index_of (l_doc x) ids <= index_of (l_doc y) ids)
        (flat_map (fun d => filter (fun l => eqb (l_doc l) d) L) ids')).
    { induction ids' as [|d ids' IH]; intros Hi Hs; [constructor|].
      inversion Hs as [|? ? Hs' Hf]; subst. cbn [flat_map]. apply StronglySorted_app.
      - clear. induction L as [|l L IH]; [constructor|]. cbn [filter].
        destruct (eqb_spec (l_doc l) d) as [E|]; [|exact IH]. constructor; [exact IH|].
        apply Forall_forall. intros y Hy. apply filter_In in Hy as [_ Hy].
        destruct (eqb_spec (l_doc y) d) as [E'|]; [|discriminate]. rewrite E, E'. lia.
      - apply IH; [|exact Hs']. intros z Hz. apply Hi. right. exact Hz.
      - intros x y Hx Hy. apply filter_In in Hx as [_ Hx]. destruct (eqb_spec (l_doc x) d) as [->|]; [|discriminate].
        apply in_flat_map in Hy as (d' & Hd' & Hy). apply filter_In in Hy as [_ Hy].
        destruct (eqb_spec (l_doc y) d') as [->|]; [|discriminate]. rewrite Forall_forall in Hf. auto. }
    apply G; [apply incl_refl|apply index_sorted; exact Hn].
  - intros n. rewrite filter_filter.
    destruct (nth_error ids n) as [d|] eqn:En.
    + (* the document number n *)
      assert (Hidx : forall l, In (l_doc l) ids -> (index_of (l_doc l) ids =? n) = eqb (l_doc l) d).
      { intros l Hl. assert (Ed : index_of d ids = n).
        { clear -En Hn. revert n En. induction ids as [|x ids IH]; intros [|n] En; try discriminate; simpl.
          - injection En as ->. rewrite eqb_refl. reflexivity.
          - apply NoDup_cons_iff in Hn as [Hni Hn]. simpl in En. destruct (eqb_spec d x) as [->|].
            + exfalso. apply Hni. eapply nth_error_In; eauto.
            + f_equal. auto. }
        destruct (Nat.eqb_spec (index_of (l_doc l) ids) n) as [E|E]; destruct (eqb_spec (l_doc l) d) as [E'|E']; auto.
        - exfalso. apply E'. eapply index_of_inj; eauto. congruence.
        - subst d. contradiction. }
      assert (Hd : In d ids) by (eapply nth_error_In; eauto).
      transitivity (filter (fun l => eqb (l_doc l) d) L).
      * clear En. transitivity (flat_map (fun d' => filter (fun l => eqb (l_doc l) d) (filter (fun l => eqb (l_doc l) d') L)) ids).
        -- assert (G : forall l, incl l ids ->
             filter (fun x => index_of (l_doc x) ids =? n) (flat_map (fun d => filter (fun l => eqb (l_doc l) d) L) l) =
             flat_map (fun d' => filter (fun l => eqb (l_doc l) d) (filter (fun l => eqb (l_doc l) d') L)) l).
           { induction l as [|d' l IH]; intros Hi; [reflexivity|]. cbn [flat_map]. rewrite filter_app. f_equal.
             - apply filter_ext_in. intros x Hx. apply filter_In in Hx as [_ Hx].
               destruct (eqb_spec (l_doc x) d') as [E|]; [|discriminate].
               apply Hidx. rewrite E. apply Hi. left. reflexivity.
             - apply IH. intros z Hz. apply Hi. right. exact Hz. }
           apply G. apply incl_refl.
        -- clear Hidx n. induction ids as [|d' ids IH]; [destruct Hd|]. cbn [flat_map].
           apply NoDup_cons_iff in Hn as [Hni Hn].
           assert (Hother : forall d'', d'' <> d -> filter (fun l => eqb (l_doc l) d) (filter (fun l => eqb (l_doc l) d'') L) = []).
           { intros d'' Hne. apply filter_none. intros x Hx. apply filter_In in Hx as [_ Hx].
             destruct (eqb_spec (l_doc x) d'') as [->|]; [|discriminate].
             destruct (eqb_spec d'' d) as [E|]; [congruence|reflexivity]. }
           destruct (dec_eq d' d) as [->|Hne].
           ++ replace (flat_map _ ids) with (@nil label).
              ** rewrite app_nil_r, filter_filter. apply filter_ext. intros l. destruct (eqb (l_doc l) d); reflexivity.
              ** symmetry. clear -Hother Hni. induction ids as [|z ids IH]; [reflexivity|]. cbn [flat_map].
                 rewrite Hother, IH; auto; intros E; apply Hni; [right; exact E|left; auto].
           ++ rewrite Hother by exact Hne. cbn [app]. apply IH; [exact Hn|]. destruct Hd; [congruence|assumption].
      * apply filter_ext. intros l. destruct (mem (l_doc l) ids) eqn:Em.
        -- rewrite Hidx by (apply mem_In; exact Em). reflexivity.
        -- destruct (eqb_spec (l_doc l) d) as [E|]; [|reflexivity]. apply mem_not_In in Em. congruence.
    + apply nth_error_None in En. rewrite !filter_none; [reflexivity| |].
      * intros x Hx. destruct (mem (l_doc x) ids) eqn:Em; [|reflexivity]. cbn [andb].
        apply mem_In in Em. apply index_of_lt in Em. apply Nat.eqb_neq. lia.
      * intros x Hx. apply in_flat_map in Hx as (d & Hd & Hx). apply filter_In in Hx as [_ Hx].
        destruct (eqb_spec (l_doc x) d) as [->|]; [|discriminate].
        apply index_of_lt in Hd. apply Nat.eqb_neq. lia.
Qed.

Lemma index_of_uniq (ids : list str) : forall d, In d ids -> index_of d ids = index_of d ids.
Proof. reflexivity. Qed.

Lemma arranged_idem ids L : arranged ids (arranged ids L) = arranged ids L.
Proof.
  unfold arranged at 1. rewrite filter_all.
  - apply sort_by_unique; [apply sort_by_sorted|reflexivity].
  - intros x Hx. eapply Permutation_in in Hx; [|apply arranged_perm]. apply filter_In in Hx. apply Hx.
Qed.

(** ** Orders *)
Definition resets_of (e : env) : dict str (list str) := match e_resets e with Some r => r | None => [] end.
Definition resetter (resets : dict str (list str)) (k : str) : list str :=
  match lookup k resets with Some ks => ks | None => [] end.

Lemma count_set c k n k' : count_of (set k n c) k' = if eqb k' k then n else count_of c k'.
Proof. unfold count_of. rewrite lookup_set. destruct (eqb k' k); reflexivity. Qed.
Lemma count_zero ks : forall c k, count_of (fold_left (fun d i => set i 0 d) ks c) k = if mem k ks then 0 else count_of c k.
Proof.
  induction ks as [|i ks IH]; intros c k; [reflexivity|]. cbn [fold_left mem]. rewrite IH, count_set.
  destruct (eqb k i), (mem k ks); reflexivity.
Qed.

Section Orders.
Variable resets : dict str (list str).
Notation R := (resetter resets).
Definition counts_ok (evs : list str) (c : dict str nat) : Prop := forall k, number R evs k (count_of c k).

Lemma number_step evs c k0 : counts_ok evs c ->
  counts_ok (evs ++ [k0])
    (match lookup k0 resets with
     | Some ks => fold_left (fun d i => set i 0 d) ks (set k0 (S (count_of c k0)) c)
     | None => set k0 (S (count_of c k0)) c
     end).
Proof.
  intros H k.
  assert (E : count_of (match lookup k0 resets with
     | Some ks => fold_left (fun d i => set i 0 d) ks (set k0 (S (count_of c k0)) c)
     | None => set k0 (S (count_of c k0)) c
     end) k = if mem k (R k0) then 0 else if eqb k k0 then S (count_of c k0) else count_of c k).
  { unfold resetter. destruct (lookup k0 resets) as [ks|]; [rewrite count_zero|]; rewrite count_set; reflexivity. }
  rewrite E. destruct (mem k (R k0)) eqn:Em.
  - exists (evs ++ [k0]), []. rewrite app_nil_r. repeat split; auto.
    right. exists evs, k0. split; [reflexivity|]. unfold resets_kind. apply mem_In. exact Em.
  - apply mem_not_In in Em. destruct (H k) as (a & b & -> & Ha & Hb & Hn).
    exists a, (b ++ [k0]). rewrite app_assoc. repeat split; auto.
    + intros k' Hk'. apply in_app_iff in Hk' as [Hk'|[<-|[]]]; [auto|exact Em].
    + rewrite filter_app, app_length. cbn [filter]. rewrite <- Hn.
      destruct (eqb_spec k k0) as [->|]; cbn [length]; lia.
Qed.

Definition numbers (evs : list str) (ks : list str) (ns : list nat) : Prop :=
  length ns = length ks /\
  forall i k n, nth_error ks i = Some k -> nth_error ns i = Some n -> number R (evs ++ firstn (S i) ks) k n.

Lemma number_kinds_spec : forall ks evs c ns c', counts_ok evs c -> number_kinds resets c ks = (ns, c') ->
  numbers evs ks ns /\ counts_ok (evs ++ ks) c'.
Proof.
  induction ks as [|k0 ks IH]; intros evs c ns c' Hc E; cbn [number_kinds] in E.
  - injection E as <- <-. rewrite app_nil_r. split; [|exact Hc]. split; [reflexivity|]. intros [|i]; discriminate.
  - set (c2 := match lookup k0 resets with
               | Some ks => fold_left (fun d i => set i 0 d) ks (set k0 (S (count_of c k0)) c)
               | None => set k0 (S (count_of c k0)) c
               end) in E.
    assert (Hc2 : counts_ok (evs ++ [k0]) c2) by (apply number_step; exact Hc).
    destruct (number_kinds resets c2 ks) as [ns1 c3] eqn:E1. injection E as <- <-.
    destruct (IH _ _ _ _ Hc2 E1) as [[Hlen Hnum] Hc3]. rewrite <- app_assoc in Hc3. split; [|exact Hc3].
    split; [cbn [length]; lia|]. intros [|i] k n Hk Hn; cbn [nth_error] in Hk, Hn.
    + injection Hk as <-. injection Hn as <-. cbn [firstn]. apply Hc2.
    + specialize (Hnum i k n Hk Hn). rewrite <- app_assoc in Hnum. exact Hnum.
Qed.

Lemma order_loop_spec : forall ls evs c, counts_ok evs c ->
  forall a k l b, order_loop resets c ls = a ++ (k, l) :: b -> forall ks, l_kind l = Some ks ->
  exists ns, l_order l = Some ns /\ numbers (evs ++ met (values a)) ks ns.
Proof.
  induction ls as [|[k0 l0] ls IH]; intros evs c Hc a k l b E ks Hk; cbn [order_loop] in E.
  - destruct a; discriminate.
  - destruct (l_kind l0) as [ks0|] eqn:E0.
    + destruct (number_kinds resets c ks0) as [ns0 c0] eqn:En.
      destruct (number_kinds_spec _ _ _ _ _ Hc En) as [Hn Hc0].
      destruct a as [|p a]; cbn [app] in E; apply cons_inj in E as [Ep E].
      * injection Ep as <- <-. cbn [l_kind set_order] in Hk. rewrite E0 in Hk. injection Hk as <-.
        exists ns0. split; [reflexivity|]. unfold values, met. cbn. rewrite app_nil_r. exact Hn.
      * destruct (IH _ _ Hc0 _ _ _ _ E ks Hk) as (ns & Hns & Hnum). exists ns. split; [exact Hns|].
        rewrite <- app_assoc in Hnum. subst p. unfold values, met in *. cbn [map snd flat_map].
        unfold kinds_of at 1. cbn [l_kind set_order]. rewrite E0. exact Hnum.
    + destruct a as [|p a]; cbn [app] in E; apply cons_inj in E as [Ep E].
      * injection Ep as <- <-. congruence.
      * destruct (IH _ _ Hc _ _ _ _ E ks Hk) as (ns & Hns & Hnum). exists ns. split; [exact Hns|].
        subst p. unfold values, met in *. cbn [map snd flat_map]. unfold kinds_of at 1. rewrite E0. exact Hnum.
Qed.

(** what the loop leaves alone *)
Lemma order_loop_same : forall ls c,
  map (fun kl => (fst kl, ident (snd kl), l_links (snd kl))) (order_loop resets c ls) =
  map (fun kl => (fst kl, ident (snd kl), l_links (snd kl))) ls.
Proof.
  induction ls as [|[k l] ls IH]; intros c; [reflexivity|]. cbn [order_loop].
  destruct (l_kind l) as [ks|] eqn:E.
  - destruct (number_kinds resets c ks) as [ns c'].
    cbn [map fst snd]. rewrite IH. unfold ident. cbn. rewrite E. reflexivity.
  - cbn [map]. rewrite IH. reflexivity.
Qed.

(** the loop does not look at the orders it replaces, nor at the links *)
Definition no_order (l : label) : label :=
  Label (l_uid l) (l_doc l) (l_id l) (l_kind l) (l_content l)
        (match l_kind l with Some _ => None | None => l_order l end) (l_links l).
Lemma order_loop_no_order : forall ls c ls', map (fun kl => (fst kl, no_order (snd kl))) ls = map (fun kl => (fst kl, no_order (snd kl))) ls' ->
  order_loop resets c ls = order_loop resets c ls'.
Proof.
  induction ls as [|[k l] ls IH]; intros c [|[k' l'] ls'] E; try discriminate; [reflexivity|].
  cbn [map fst snd] in E. apply cons_inj in E as [E Erest].
  injection E as Ek Eu Ed Ei Ekind Econ Eord Elinks. subst k'. cbn [order_loop].
  rewrite Ekind in *. destruct (l_kind l') as [ks|] eqn:El'.
  - destruct (number_kinds resets c ks) as [ns c']. f_equal; [|apply IH; exact Erest].
    f_equal. unfold set_order. congruence.
  - f_equal; [|apply IH; exact Erest]. f_equal. destruct l, l'; cbn in *. congruence.
Qed.
End Orders.

(** ** Links *)
Definition get (v : level) (c : links) : option nat :=
  match v with
  | Part => part_link c | Chapter => chapter_link c | Section_ => section_link c
  | Subsection => subsection_link c | Subsubsection => subsubsection_link c
  end.
Definition heading_of (l : label) : option level :=
  match l_kind l with
  | None | Some [] => None
  | Some ks =>
      let k := last ks [] in
      if eqb k (lit "part") then Some Part else if eqb k (lit "chapter") then Some Chapter
      else if eqb k (lit "section") then Some Section_ else if eqb k (lit "subsection") then Some Subsection
      else if eqb k (lit "subsubsection") then Some Subsubsection else None
  end.
Lemma is_heading_of v l : is_heading v l <-> heading_of l = Some v.
Proof.
  unfold is_heading, heading_of. destruct (l_kind l) as [ks|].
  - split.
    + intros [ks' [= ->]]. destruct (ks' ++ [level_name v]) as [|k0 r] eqn:E; [destruct ks'; discriminate|].
      rewrite <- E, last_last. destruct v; reflexivity.
    + intros H. destruct ks as [|k0 ks]; [discriminate|].
      destruct (exists_last (l := k0 :: ks) ltac:(discriminate)) as (ks' & k & E). rewrite E in H |- *.
      exists ks'. do 3 f_equal. rewrite last_last in H.
      destruct (eqb_spec k (lit "part")) as [Ek|_]; [injection H as <-; exact Ek|].
      destruct (eqb_spec k (lit "chapter")) as [Ek|_]; [injection H as <-; exact Ek|].
      destruct (eqb_spec k (lit "section")) as [Ek|_]; [injection H as <-; exact Ek|].
      destruct (eqb_spec k (lit "subsection")) as [Ek|_]; [injection H as <-; exact Ek|].
      destruct (eqb_spec k (lit "subsubsection")) as [Ek|_]; [injection H as <-; exact Ek|discriminate].
  - split; [intros [ks' [=]]|discriminate].
Qed.

Lemma next_links_get cur l v :
  get v (next_links cur l) =
  match heading_of l with
  | None => get v cur
  | Some w => if Nat.ltb (depth v) (depth w) then get v cur
              else if Nat.eqb (depth v) (depth w) then Some (l_uid l) else None
  end.
Proof.
  unfold next_links, heading_of. destruct (l_kind l) as [[|k0 ks]|]; try reflexivity.
  set (k := last (k0 :: ks) []). clearbody k.
  destruct (eqb k (lit "part")); [destruct v; reflexivity|].
  destruct (eqb k (lit "chapter")); [destruct v; reflexivity|].
  destruct (eqb k (lit "section")); [destruct v; reflexivity|].
  destruct (eqb k (lit "subsection")); [destruct v; reflexivity|].
  destruct (eqb k (lit "subsubsection")); [destruct v; reflexivity|reflexivity].
Qed.
Lemma depth_inj v w : depth v = depth w -> v = w.
Proof. destruct v, w; cbn; intros; try reflexivity; discriminate. Qed.

Lemma encloses_snoc pre l v h : encloses (pre ++ [l]) v h <->
  (h = l /\ is_heading v l) \/ (encloses pre v h /\ forall w, is_heading w l -> depth v < depth w).
Proof.
  split.
  - intros (a & b & E & Hh & Hb). destruct (exists_last (l := h :: b) ltac:(discriminate)) as (b' & x & Eb).
    rewrite Eb, app_assoc in E. apply app_inj_tail in E as [-> <-].
    destruct b' as [|h' b'].
    + injection Eb as -> ->. left. auto.
    + injection Eb as <- ->. right. split.
      * exists a, b'. repeat split; auto. intros x w Hx. apply Hb. apply in_or_app. auto.
      * intros w. apply Hb. apply in_or_app. right. left. reflexivity.
  - intros [[-> Hh]|[(a & b & -> & Hh & Hb) Hl]].
    + exists pre, []. repeat split; auto. intros x w [].
    + exists a, (b ++ [l]). rewrite <- app_assoc. repeat split; auto.
      intros x w Hx. apply in_app_iff in Hx as [Hx|[<-|[]]]; [apply Hb; exact Hx|apply Hl].
Qed.

(** the current headings are the enclosing ones *)
Definition current (pre : list label) (cur : links) : Prop :=
  forall v, match get v cur with
            | Some u => exists h, encloses pre v h /\ l_uid h = u
            | None => forall h, ~ encloses pre v h
            end.
Lemma current_step pre cur l : current pre cur -> current (pre ++ [l]) (next_links cur l).
Proof.
  intros H v. rewrite next_links_get. specialize (H v). destruct (heading_of l) as [w|] eqn:E.
  - assert (Ew : is_heading w l) by (apply is_heading_of; exact E).
    destruct (Nat.ltb_spec (depth v) (depth w)) as [Hlt|Hge].
    + assert (Hok : forall w', is_heading w' l -> depth v < depth w').
      { intros w' Hw'. apply is_heading_of in Hw'. congruence. }
      destruct (get v cur) as [u|].
      * destruct H as (h & Hh & Hu). exists h. split; [|exact Hu]. apply encloses_snoc. auto.
      * intros h Hh. apply encloses_snoc in Hh as [[-> Hh]|[Hh _]]; [|exact (H h Hh)].
        specialize (Hok v Hh). lia.
    + destruct (Nat.eqb_spec (depth v) (depth w)) as [Heq|Hne].
      * apply depth_inj in Heq. subst w. exists l. split; [|reflexivity]. apply encloses_snoc. auto.
      * intros h Hh. apply encloses_snoc in Hh as [[-> Hh]|[_ Hh]].
        -- apply is_heading_of in Hh. assert (v = w) by congruence. subst. lia.
        -- specialize (Hh w Ew). lia.
  - assert (Hno : forall w, ~ is_heading w l) by (intros w Hw; apply is_heading_of in Hw; congruence).
    destruct (get v cur) as [u|].
    + destruct H as (h & Hh & Hu). exists h. split; [|exact Hu]. apply encloses_snoc. right. split; [exact Hh|].
      intros w Hw. destruct (Hno w Hw).
    + intros h Hh. apply encloses_snoc in Hh as [[-> Hh]|[Hh _]]; [exact (Hno v Hh)|exact (H h Hh)].
Qed.
Lemma next_links_ext cur l l' : l_kind l = l_kind l' -> l_uid l = l_uid l' -> next_links cur l = next_links cur l'.
Proof. intros E1 E2. unfold next_links. rewrite E1, E2. reflexivity. Qed.

Lemma link_set v l c : link v (set_links l c) = weak_set (link v l) (get v c).
Proof. destruct v; reflexivity. Qed.

Lemma content_loop_spec : forall ls pre cur, current pre cur ->
  forall a k l b, content_loop cur ls = a ++ (k, l) :: b -> l_content l = true ->
  forall v, exists l0, In (k, l0) ls /\ ident l0 = ident l /\ l_order l0 = l_order l /\
    ((exists h, encloses (pre ++ content (values (a ++ [(k, l)]))) v h /\ link v l = Some (l_uid h)) \/
     ((forall h, ~ encloses (pre ++ content (values (a ++ [(k, l)]))) v h) /\ link v l = link v l0)).
Proof.
  induction ls as [|[k0 l0] ls IH]; intros pre cur Hc a k l b E Hl v; cbn [content_loop] in E.
  - destruct a; discriminate.
  - destruct (l_content l0) eqn:E0.
    + pose proof (current_step pre cur (set_links l0 (next_links cur l0)) Hc) as Hs.
      rewrite (next_links_ext cur (set_links l0 (next_links cur l0)) l0 eq_refl eq_refl) in Hs.
      destruct a as [|p a]; cbn [app] in E; apply cons_inj in E as [Ep E].
      * injection Ep as <- <-. exists l0. split; [left; reflexivity|]. split; [reflexivity|]. split; [reflexivity|].
        unfold content, values. cbn [app map snd filter l_content set_links]. rewrite E0.
        rewrite link_set. specialize (Hs v). destruct (get v (next_links cur l0)) as [u|].
        -- left. destruct Hs as (h & Hh & <-). exists h. split; [exact Hh|reflexivity].
        -- right. split; [exact Hs|reflexivity].
      * subst p. destruct (IH _ _ Hs _ _ _ _ E Hl v) as (l1 & Hin & Hid & Hord & Hv).
        exists l1. split; [right; exact Hin|]. split; [exact Hid|]. split; [exact Hord|].
        unfold content, values in *. cbn [app map snd filter l_content set_links] in *. rewrite E0.
        rewrite <- app_assoc in Hv. exact Hv.
    + destruct a as [|p a]; cbn [app] in E; apply cons_inj in E as [Ep E].
      * injection Ep as <- <-. congruence.
      * subst p. destruct (IH _ _ Hc _ _ _ _ E Hl v) as (l1 & Hin & Hid & Hord & Hv).
        exists l1. split; [right; exact Hin|]. split; [exact Hid|]. split; [exact Hord|].
        unfold content, values in *. cbn [app map snd filter] in *. rewrite E0. exact Hv.
Qed.

Lemma content_loop_same : forall ls cur,
  map (fun kl => (fst kl, ident (snd kl), l_order (snd kl))) (content_loop cur ls) =
  map (fun kl => (fst kl, ident (snd kl), l_order (snd kl))) ls.
Proof.
  induction ls as [|[k l] ls IH]; intros cur; [reflexivity|]. cbn [content_loop].
  destruct (l_content l) eqn:E; cbn [map]; rewrite IH; [|reflexivity].
  cbn [fst snd]. unfold ident. cbn. rewrite E. reflexivity.
Qed.

Lemma weak_set_idem o n : weak_set (weak_set o n) n = weak_set o n.
Proof. destruct n; reflexivity. Qed.
Lemma set_links_idem l c : set_links (set_links l c) c = set_links l c.
Proof. unfold set_links. cbn. rewrite !weak_set_idem. reflexivity. Qed.
Lemma content_loop_idem : forall ls cur, content_loop cur (content_loop cur ls) = content_loop cur ls.
Proof.
  induction ls as [|[k l] ls IH]; intros cur; [reflexivity|]. cbn [content_loop].
  destruct (l_content l) eqn:E; cbn [content_loop].
  - cbn [l_content set_links]. rewrite E. fold (set_links l (next_links cur l)).
    rewrite (next_links_ext cur (set_links l (next_links cur l)) l eq_refl eq_refl).
    rewrite set_links_idem, IH. reflexivity.
  - rewrite E, IH. reflexivity.
Qed.

(** ** Registration as a whole *)
Definition registration (e : env) (ls : labels) : labels := register_content (register_orders e ls).

Lemma map_compose_eq {A B C} (f : A -> B) (g : B -> C) l l' : map f l = map f l' -> map (fun x => g (f x)) l = map (fun x => g (f x)) l'.
Proof. intros E. rewrite <- !(map_map f g). rewrite E. reflexivity. Qed.

Lemma registration_ident e ls :
  map (fun kl => (fst kl, ident (snd kl))) (registration e ls) =
  map (fun kl => (fst kl, ident (snd kl))) (reorder (e_docs e) ls).
Proof.
  unfold registration, register_content, register_orders.
  etransitivity; [|].
  - apply (map_compose_eq (fun kl : label_key * label => (fst kl, ident (snd kl), l_order (snd kl))) fst).
    apply content_loop_same.
  - cbn [fst].
    apply (map_compose_eq (fun kl : label_key * label => (fst kl, ident (snd kl), l_links (snd kl))) fst).
    apply order_loop_same.
Qed.

Definition ident_key (i : nat * str * str * option (list str) * bool) : label_key :=
  match i with (_, d, l, _, _) => (d, l) end.
Lemma ident_key_of l : ident_key (ident l) = key_of l. Proof. reflexivity. Qed.

Lemma registration_keyed e ls : wf ls -> keyed ls ->
  keyed (registration e ls) /\ wf (registration e ls) /\
  map ident (values (registration e ls)) = map ident (arranged (docs_of (e_docs e) (values ls)) (values ls)).
Proof.
  intros Hw Hk. pose proof (registration_ident e ls) as E. rewrite reorder_eq in E by assumption.
  set (A := arranged (docs_of (e_docs e) (values ls)) (values ls)) in *.
  assert (Ev : map ident (values (registration e ls)) = map ident A).
  { unfold values. rewrite map_map. apply (f_equal (map snd)) in E. rewrite !map_map in E. cbn [snd] in E.
    rewrite E. unfold tie. rewrite map_map. reflexivity. }
  assert (Ek : map fst (registration e ls) = map key_of A).
  { apply (f_equal (map fst)) in E. rewrite !map_map in E. cbn [fst] in E.
    etransitivity; [exact E|]. unfold tie. rewrite map_map. reflexivity. }
  assert (Eq : map key_of A = map key_of (values (registration e ls))).
  { rewrite <- (map_ext _ _ ident_key_of A), <- (map_ext _ _ ident_key_of (values (registration e ls))).
    rewrite <- !(map_map ident ident_key). rewrite Ev. reflexivity. }
  assert (K : keyed (registration e ls)).
  { unfold keyed, tie. rewrite Eq in Ek. unfold values in *.
    revert Ek. generalize (registration e ls). induction l as [|[k l] r IH]; [reflexivity|].
    cbn [map fst snd]. intros [= -> E']. f_equal. apply IH. exact E'. }
  split; [exact K|]. split; [|exact Ev].
  unfold wf, keys. rewrite Ek. apply arranged_NoDup. apply wf_keyed; assumption.
Qed.

(** ** The invariant of reachable managers *)
Definition Inv (m : manager) : Prop :=
  wf (m_labels m) /\ keyed (m_labels m) /\ NoDup (map l_uid (values (m_labels m))) /\
  Forall (fun l => l_uid l < next_uid m) (values (m_labels m)).

Definition ident_uid (i : nat * str * str * option (list str) * bool) : nat :=
  match i with (u, _, _, _, _) => u end.

Lemma Inv_register e m : Inv m -> Inv (register e m).
Proof.
  intros (Hw & Hk & Hu & Hlt). unfold register. destruct (m_registered m); [repeat split; assumption|].
  destruct (registration_keyed e _ Hw Hk) as (K & W & E). fold (registration e (m_labels m)).
  assert (Eu : map l_uid (values (registration e (m_labels m))) =
               map l_uid (arranged (docs_of (e_docs e) (values (m_labels m))) (values (m_labels m)))).
  { apply (f_equal (map ident_uid)) in E. rewrite !map_map in E. exact E. }
  repeat split; cbn [m_labels next_uid]; auto.
  - rewrite Eu. apply arranged_NoDup. exact Hu.
  - rewrite <- Forall_map with (f := l_uid) (P := fun u => u < next_uid m). rewrite Eu. apply Forall_map.
    apply Forall_forall. intros x Hx. eapply Permutation_in in Hx; [|apply arranged_perm].
    apply filter_In in Hx as [Hx _]. rewrite Forall_forall in Hlt. auto.
Qed.

Lemma remove_keys_filter (ls : labels) ks : wf ls ->
  fold_left (fun d k => remove k d) ks ls = filter (fun kl => negb (mem (fst kl) ks)) ls.
Proof.
  revert ls. induction ks as [|k ks IH]; intros ls Hw; cbn [fold_left].
  - symmetry. apply filter_all. reflexivity.
  - rewrite IH by (apply wf_remove; exact Hw).
    assert (E : remove k ls = filter (fun kl => negb (eqb k (fst kl))) ls).
    { clear IH. induction ls as [|[k0 l0] ls IH]; [reflexivity|]. unfold wf, keys in Hw. cbn [map fst] in Hw.
      apply NoDup_cons_iff in Hw as [Hn Hw]. cbn [remove filter fst]. destruct (eqb_spec k k0) as [->|Hne]; cbn [negb].
      - symmetry. apply filter_all. intros [k1 l1] H1. cbn [fst]. destruct (eqb_spec k0 k1) as [->|]; [|reflexivity].
        exfalso. apply Hn. apply (in_map fst) in H1. exact H1.
      - f_equal. apply IH. exact Hw. }
    rewrite E, filter_filter. apply filter_ext. intros [k1 l1]. cbn [fst mem].
    rewrite negb_orb, (eqb_sym k k1). reflexivity.
Qed.

Lemma reset_labels ds m : wf (m_labels m) ->
  m_labels (reset (Some ds) m) = filter (fun kl => negb (mem (fst (fst kl)) ds)) (m_labels m).
Proof.
  intros Hw. cbn [reset m_labels]. rewrite remove_keys_filter by exact Hw. apply filter_ext_in.
  intros [[d i] l] Hin. cbn [fst]. f_equal. destruct (mem d ds) eqn:E.
  - apply mem_In. apply filter_In. split; [|exact E]. apply (in_map fst) in Hin. exact Hin.
  - match goal with |- ?x = _ => destruct x eqn:E' end; [|reflexivity]. apply mem_In in E'. apply filter_In in E' as [_ E']. cbn [fst] in E'. congruence.
Qed.

Lemma filter_keyed (p : label_key -> bool) ls : keyed ls ->
  filter (fun kl => p (fst kl)) ls = tie (filter (fun l => p (key_of l)) (values ls)).
Proof.
  intros Hk. unfold keyed in Hk. rewrite Hk at 1. unfold tie. rewrite filter_map_comm. reflexivity.
Qed.
Lemma NoDup_map_filter {A B} (f : A -> B) p l : NoDup (map f l) -> NoDup (map f (filter p l)).
Proof.
  induction l as [|x l IH]; intros H; [constructor|]. cbn [map] in H. apply NoDup_cons_iff in H as [Hn H].
  cbn [filter]. destruct (p x); [|auto]. cbn [map]. constructor; [|auto].
  intros Hi. apply Hn. apply in_map_iff in Hi as (y & <- & Hy). apply filter_In in Hy as [Hy _]. apply in_map. exact Hy.
Qed.

Lemma Inv_reset ds m : Inv m -> Inv (reset ds m).
Proof.
  intros (Hw & Hk & Hu & Hlt). destruct ds as [ds|].
  - unfold Inv. rewrite reset_labels by exact Hw.
    rewrite (filter_keyed (fun k => negb (mem (fst k) ds))) by exact Hk.
    rewrite values_tie. repeat split.
    + unfold wf. rewrite keys_tie. apply NoDup_map_filter. apply wf_keyed; assumption.
    + apply keyed_tie.
    + apply NoDup_map_filter. exact Hu.
    + apply Forall_forall. intros x Hx. apply filter_In in Hx as [Hx _]. cbn [reset next_uid].
      rewrite Forall_forall in Hlt. auto.
  - repeat split; cbn; constructor.
Qed.

(** adding: what is added *)
Lemma add_label_cases id kind cont sep doc m :
  let '(d0, lid) := parse_id sep id in
  let d := match d0 with Some d => Some d | None => doc end in
  match d with
  | None => fst (add_label id kind cont sep doc m) = Raise OtherError /\
            snd (add_label id kind cont sep doc m) = Manager (m_labels m) false (next_uid m)
  | Some d =>
      let l := Label (next_uid m) d lid kind cont None no_links in
      if has (d, lid) (m_labels m) then
        fst (add_label id kind cont sep doc m) = Raise DuplicateLabel /\
        snd (add_label id kind cont sep doc m) = Manager (m_labels m) false (next_uid m)
      else
        fst (add_label id kind cont sep doc m) = Ok l /\
        snd (add_label id kind cont sep doc m) = Manager (m_labels m ++ [((d, lid), l)]) false (S (next_uid m))
  end.
Proof.
  unfold add_label. destruct (parse_id sep id) as [[d|] lid]; [|destruct doc as [d|]; [|cbn; auto]].
  all: destruct (has (d, lid) (m_labels m)) eqn:E; cbn [fst snd]; [auto|]; rewrite set_new by exact E; auto.
Qed.

Lemma Inv_add id kind cont sep doc m : Inv m -> Inv (snd (add_label id kind cont sep doc m)).
Proof.
  intros (Hw & Hk & Hu & Hlt). pose proof (add_label_cases id kind cont sep doc m) as H.
  destruct (parse_id sep id) as [d0 lid]. cbv zeta in H.
  destruct (match d0 with Some d => Some d | None => doc end) as [d|] eqn:Ed.
  - destruct (has (d, lid) (m_labels m)) eqn:E; destruct H as [_ ->].
    + repeat split; assumption.
    + assert (Eset := set_new (d, lid) (Label (next_uid m) d lid kind cont None no_links) (m_labels m) E).
      repeat split; cbn [m_labels next_uid].
      * apply (eq_ind _ (fun x => wf x) (wf_set (d, lid) (Label (next_uid m) d lid kind cont None no_links) _ Hw) _ Eset).
      * unfold keyed, values, tie. rewrite map_app, map_app. unfold keyed in Hk. rewrite Hk at 1. reflexivity.
      * unfold values. rewrite !map_app. cbn. apply NoDup_app_iff. repeat split; auto.
        -- constructor; [intros []|constructor].
        -- intros x Hx [<-|[]]. apply in_map_iff in Hx as (y & Ey & Hy). rewrite Forall_forall in Hlt.
           specialize (Hlt y Hy). lia.
      * unfold values. rewrite map_app. apply Forall_app. split.
        -- eapply Forall_impl; [|exact Hlt]. cbn. intros; lia.
        -- constructor; [cbn; lia|constructor].
  - destruct H as [_ ->]. repeat split; assumption.
Qed.

Lemma Inv_run h : Inv (run h).
Proof.
  unfold run. assert (G : forall h m, Inv m -> Inv (fold_left (fun m o => do_op o m) h m)).
  { clear. induction h as [|o h IH]; intros m Hm; [exact Hm|]. cbn [fold_left]. apply IH.
    destruct o; cbn [do_op]; [apply Inv_add|apply Inv_reset|apply Inv_register]; exact Hm. }
  apply G. repeat split; cbn; constructor.
Qed.
Lemma Inv_reachable m : reachable m -> Inv m.
Proof. intros [h ->]. apply Inv_run. Qed.

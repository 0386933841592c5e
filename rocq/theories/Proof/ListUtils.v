(** Lemmas about the list utilities. *)
From Coq Require Import List Bool Arith Lia ZArith Permutation.
From Verif.Base Require Import Str StrFacts Dict DictFacts Result.
From Verif.Model Require Import ListUtils.
From Verif.Spec Require Import ListUtils.
Import ListNotations.

Section Uniq.
Context {A K : Type} `{EqDec K} (key : A -> K).

(** The elements of [l] whose key is new with respect to [seen]. *)
Lemma uv_In seen l x :
  In x (unique_everseen key seen l) -> In x l /\ ~ In (key x) seen.
Proof.
  revert seen; induction l as [|y l IH]; intros seen; simpl; [tauto|].
  destruct (mem (key y) seen) eqn:E.
  - intros Hx. apply IH in Hx. tauto.
  - intros [->|Hx].
    + apply mem_not_In in E. tauto.
    + apply IH in Hx. simpl in Hx. tauto.
Qed.
Lemma uv_key_mem seen l k :
  In k (map key l) -> ~ In k seen -> In k (map key (unique_everseen key seen l)).
Proof.
  revert seen; induction l as [|y l IH]; intros seen; simpl; [tauto|].
  intros Hk Hns. destruct (mem (key y) seen) eqn:E.
  - apply mem_In in E. destruct Hk as [<-|Hk]; [contradiction|]. auto.
  - simpl. destruct (dec_eq (key y) k) as [->|Hne]; [left; reflexivity|].
    right. destruct Hk as [Hk|Hk]; [contradiction|].
    apply IH; [exact Hk|]. simpl. intros [?|?]; congruence.
Qed.
Lemma uv_NoDup seen l : NoDup (map key (unique_everseen key seen l)).
Proof.
  revert seen; induction l as [|y l IH]; intros seen; simpl; [constructor|].
  destruct (mem (key y) seen); [auto|]. simpl. constructor; [|auto].
  intros Hin. apply in_map_iff in Hin as (z & Ez & Hz).
  apply uv_In in Hz as [_ Hz]. apply Hz. left. symmetry. exact Ez.
Qed.
Lemma uv_id seen l :
  NoDup (map key l) -> (forall x, In x l -> ~ In (key x) seen) ->
  unique_everseen key seen l = l.
Proof.
  revert seen; induction l as [|y l IH]; intros seen Hnd Hs; simpl; [reflexivity|].
  simpl in Hnd. apply NoDup_cons_iff in Hnd as [Hni Hnd].
  destruct (mem (key y) seen) eqn:E.
  - apply mem_In in E. exfalso. apply (Hs y); simpl; auto.
  - rewrite IH; [reflexivity|exact Hnd|].
    intros x Hx [Hk|Hk].
    + apply Hni. rewrite Hk. apply in_map. exact Hx.
    + apply (Hs x); simpl; auto.
Qed.
Lemma uv_app seen l1 l2 :
  unique_everseen key seen (l1 ++ l2) =
  unique_everseen key seen l1 ++ unique_everseen key (rev (map key l1) ++ seen) l2.
Proof.
  revert seen; induction l1 as [|y l1 IH]; intros seen; simpl; [reflexivity|].
  destruct (mem (key y) seen) eqn:E.
  - rewrite IH. f_equal. rewrite <- app_assoc. simpl.
    apply mem_In in E.
    assert (G : forall s1 s2 l, (forall k, In k s1 <-> In k s2) ->
      unique_everseen key s1 l = unique_everseen key s2 l).
    { clear. intros s1 s2 l. revert s1 s2. induction l as [|z l IH]; intros s1 s2 Hs; simpl; [reflexivity|].
      replace (mem (key z) s2) with (mem (key z) s1).
      - destruct (mem (key z) s1); [auto|]. f_equal. apply IH. intros k. simpl. rewrite Hs. tauto.
      - apply eq_true_iff_eq. rewrite !mem_In. apply Hs. }
    apply G. intros k. rewrite !in_app_iff. simpl. intuition (subst; auto).
  - rewrite IH. simpl. do 2 f_equal. rewrite <- app_assoc. reflexivity.
Qed.
Lemma uniq_by_snoc l x :
  uniq_by key (l ++ [x]) =
  uniq_by key l ++ (if existsb (fun y => eqb (key x) (key y)) l then [] else [x]).
Proof.
  unfold uniq_by. rewrite uv_app. f_equal. simpl. rewrite app_nil_r.
  replace (mem (key x) (rev (map key l))) with (existsb (fun y => eqb (key x) (key y)) l).
  - destruct (existsb _ l); reflexivity.
  - apply eq_true_iff_eq. rewrite mem_In, existsb_exists, <- in_rev, in_map_iff.
    split; intros (y & H1 & H2); exists y.
    + apply eqb_eq in H2. split; congruence.
    + split; [exact H2|]. apply eqb_eq. congruence.
Qed.

Lemma first_occurrences_snoc l x :
  first_occurrences key (l ++ [x]) =
  first_occurrences key l ++ (if existsb (fun y => eqb (key x) (key y)) l then [] else [x]).
Proof.
  unfold first_occurrences. rewrite app_length, seq_app, filter_app, flat_map_app. f_equal.
  - assert (E : filter (is_first key (l ++ [x])) (seq 0 (length l))
              = filter (is_first key l) (seq 0 (length l))).
    { apply filter_ext_in. intros i Hi. apply in_seq in Hi. unfold is_first.
      rewrite nth_error_app1 by lia. rewrite firstn_app.
      replace (i - length l) with 0 by lia. simpl. rewrite app_nil_r. reflexivity. }
    rewrite E. clear E.
    assert (G : forall is, (forall i, In i is -> i < length l) ->
      flat_map (fun i => match nth_error (l ++ [x]) i with Some x0 => [x0] | None => [] end) is
      = flat_map (fun i => match nth_error l i with Some x0 => [x0] | None => [] end) is).
    { induction is as [|i is IH]; intros Hi; simpl; [reflexivity|].
      rewrite IH by (intros; apply Hi; simpl; auto).
      rewrite nth_error_app1 by (apply Hi; simpl; auto). reflexivity. }
    apply G. intros i Hi. apply filter_In in Hi as [Hi _]. apply in_seq in Hi. lia.
  - simpl. unfold is_first. rewrite nth_error_app2 by lia. rewrite Nat.sub_diag. simpl.
    rewrite firstn_app, Nat.sub_diag, firstn_all. simpl. rewrite app_nil_r.
    destruct (existsb _ l); simpl; [reflexivity|].
    rewrite nth_error_app2 by lia. rewrite Nat.sub_diag. reflexivity.
Qed.
Lemma uniq_by_first l : uniq_by key l = first_occurrences key l.
Proof.
  induction l as [|x l IH] using rev_ind; [reflexivity|].
  rewrite uniq_by_snoc, first_occurrences_snoc, IH. reflexivity.
Qed.

Lemma count_items_snoc l x :
  count_items key (l ++ [x]) =
  match lookup (key x) (count_items key l) with
  | Some n => set (key x) (n + 1) (count_items key l)
  | None => set (key x) 1 (count_items key l)
  end.
Proof. unfold count_items. rewrite fold_left_app. reflexivity. Qed.
Lemma count_items_lookup l k :
  lookup k (count_items key l) =
  match occurrences key k l with 0 => None | S n => Some (S n) end.
Proof.
  revert k. induction l as [|x l IH] using rev_ind; [reflexivity|]. intros k.
  rewrite count_items_snoc. unfold occurrences. rewrite filter_app, app_length.
  fold (occurrences key k l). simpl.
  destruct (eqb_spec (key x) k) as [E|Hne]; simpl.
  - subst k. rewrite IH. destruct (occurrences key (key x) l) as [|n];
      rewrite lookup_set, eqb_refl; simpl; f_equal; lia.
  - rewrite Nat.add_0_r. rewrite <- IH.
    destruct (lookup (key x) (count_items key l)); rewrite lookup_set;
      (destruct (eqb_spec k (key x)); [congruence|reflexivity]).
Qed.
Lemma dupes_by_filter l :
  dupes_by key l = filter (fun x => 2 <=? occurrences key (key x) l) l.
Proof.
  unfold dupes_by. apply filter_ext. intros x. rewrite count_items_lookup.
  destruct (occurrences key (key x) l) as [|n]; [reflexivity|].
  reflexivity.
Qed.
Lemma occurrences_pos k l : 0 < occurrences key k l <-> In k (map key l).
Proof.
  unfold occurrences. induction l as [|y l IH]; simpl; [split; [lia|tauto]|].
  destruct (eqb_spec (key y) k) as [E|Hne]; simpl.
  - split; [auto|lia].
  - rewrite IH. intuition congruence.
Qed.
Lemma NoDup_occurrences l :
  NoDup (map key l) <-> forall k, occurrences key k l <= 1.
Proof.
  induction l as [|y l IH]; simpl.
  - split; [intros _ k; unfold occurrences; simpl; lia|constructor].
  - rewrite NoDup_cons_iff, IH. rewrite <- occurrences_pos. unfold occurrences. simpl. split.
    + intros [H1 H2] k. specialize (H2 k).
      destruct (eqb_spec (key y) k) as [<-|]; simpl; lia.
    + intros Hk. split.
      * specialize (Hk (key y)). rewrite eqb_refl in Hk. simpl in Hk. lia.
      * intros k. specialize (Hk k). destruct (eqb (key y) k); simpl in Hk; lia.
Qed.
End Uniq.

(** ** unwrap and flatten *)
Section PvalInd.
Context {A : Type} (P : pval A -> Prop).
Hypothesis HA : forall a, P (Atom a).
Hypothesis HL : forall l, Forall P l -> P (PList l).
Fixpoint pval_ind' (v : pval A) : P v :=
  match v with
  | Atom a => HA a
  | PList l =>
      HL l ((fix go (l : list (pval A)) : Forall P l :=
               match l with
               | nil => Forall_nil P
               | x :: r => Forall_cons x (pval_ind' x) (go r)
               end) l)
  end.
End PvalInd.

Lemma flatten_val_leaves {A} (v : pval A) : leaves v (flatten_val v).
Proof.
  induction v as [a|l IH] using pval_ind'; simpl; [constructor|].
  rewrite flat_map_concat_map. constructor.
  induction IH; simpl; constructor; auto.
Qed.
Lemma leaves_fun {A} (v : pval A) l : leaves v l -> l = flatten_val v.
Proof.
  revert l; induction v as [a|vs IH] using pval_ind'; intros l Hl; inversion Hl; subst.
  - reflexivity.
  - simpl. rewrite flat_map_concat_map. f_equal. clear Hl.
    match goal with HF : Forall2 leaves vs _ |- _ => revert IH; induction HF; intros IH end.
    + reflexivity.
    + inversion IH; subst. simpl. f_equal; auto.
Qed.

Lemma unwrap_wrapped {A} (v : pval A) : wrapped (unwrap v) v.
Proof.
  induction v as [a|l IH] using pval_ind'; simpl; [constructor|].
  destruct l as [|x [|y l]]; try constructor.
  inversion IH; subst. destruct x as [a|[|x' [|y' l']]]; try (constructor; constructor).
  assumption.
Qed.
Lemma unwrap_not_single {A} (v w : pval A) : unwrap v <> PList [w].
Proof.
  revert w; induction v as [a|l IH] using pval_ind'; intros w; simpl; [discriminate|].
  destruct l as [|x [|y l]]; try discriminate.
  inversion IH; subst. destruct x as [a|[|x' [|y' l']]]; try discriminate. auto.
Qed.
Lemma wrapped_core {A} (u v : pval A) :
  wrapped u v -> (forall w, u <> PList [w]) -> unwrap v = u.
Proof.
  induction 1 as [v|v w Hw IH]; intros Hc.
  - destruct v as [a|[|x [|y l]]]; simpl; try reflexivity. exfalso. eapply Hc. reflexivity.
  - specialize (IH Hc). simpl. destruct w as [a|[|x [|y l]]]; simpl in *; auto.
Qed.

(** ** chunks *)
Section Chunks.
Context {A : Type}.
Implicit Types l : list A.

Fixpoint pieces (n m : nat) l : list (list A) :=
  match m with O => [] | S m' => firstn n l :: pieces n m' (skipn n l) end.

Lemma skipn_add a b l : skipn a (skipn b l) = skipn (b + a) l.
Proof. revert l; induction b as [|b IH]; intros [|x l]; simpl; auto. apply skipn_nil. Qed.

Lemma slices_pieces n m l k :
  map (fun i => slice i (i + n) l) (map (fun j => j * n) (seq k m)) = pieces n m (skipn (k * n) l).
Proof.
  revert k; induction m as [|m IH]; intros k; simpl; [reflexivity|]. f_equal.
  - unfold slice. f_equal. lia.
  - rewrite IH. f_equal. rewrite skipn_add. f_equal. lia.
Qed.
Lemma pieces_concat n m l : length l <= m * n -> concat (pieces n m l) = l.
Proof.
  revert l; induction m as [|m IH]; intros l Hl; simpl.
  - destruct l; [reflexivity|simpl in Hl; lia].
  - rewrite IH; [apply firstn_skipn|]. rewrite skipn_length. simpl in Hl. lia.
Qed.
Lemma pieces_lengths n m l :
  0 < n -> length l <= m * n -> m * n < length l + n ->
  forall i p, nth_error (pieces n m l) i = Some p ->
    (S i < m -> length p = n) /\ (0 < length p <= n).
Proof.
  intros Hn. revert l; induction m as [|m IH]; intros l H1 H2 i p Hp; simpl in Hp.
  - destruct i; discriminate.
  - destruct i as [|i]; simpl in Hp.
    + injection Hp as <-. rewrite firstn_length. simpl in *. split; [intros|]; nia.
    + destruct (IH (skipn n l)) with (i := i) (p := p) as [H3 H4]; auto.
      * rewrite skipn_length. simpl in *. lia.
      * rewrite skipn_length. destruct m as [|m]; [destruct i; discriminate|]. simpl in *. lia.
      * split; [intros; apply H3; lia|exact H4].
Qed.
Lemma pieces_length n m l : length (pieces n m l) = m.
Proof. revert l; induction m; intros; simpl; auto. Qed.
Lemma ceil_bounds len n : 0 < n ->
  len <= ((len + n - 1) / n) * n /\ ((len + n - 1) / n) * n < len + n.
Proof.
  intros Hn. pose proof (Nat.div_mod (len + n - 1) n ltac:(lia)) as E.
  pose proof (Nat.mod_upper_bound (len + n - 1) n ltac:(lia)) as B. nia.
Qed.
Lemma chunks_pieces l (n : nat) : 0 < n ->
  chunks l (Z.of_nat n) = Ok (pieces n ((length l + n - 1) / n) l).
Proof.
  intros Hn. unfold chunks.
  destruct (Z.eqb_spec (Z.of_nat n) 0); [lia|]. destruct (Z.ltb_spec (Z.of_nat n) 0); [lia|].
  rewrite Nat2Z.id. unfold range_step. rewrite slices_pieces. reflexivity.
Qed.
End Chunks.

(** ** transpose *)
Section Transpose.
Context {A : Type}.
Implicit Types t : list (list A).

Lemma zip_star_cell m : forall n t, rectangular n m t -> 0 < n ->
  rectangular m n (zip_star m t) /\
  forall i j, cell (zip_star m t) j i = if j <? m then cell t i j else None.
Proof.
  induction m as [|m IH]; intros n t [Hn Hm] Hpos; simpl.
  - split; [split; [reflexivity|constructor]|]. intros i j.
    unfold cell. destruct j; reflexivity.
  - assert (E : existsb (fun r : list A => match r with [] => true | _ :: _ => false end) t = false).
    { clear IH Hn Hpos. induction Hm as [|r t Hr Ht IHm]; simpl; [reflexivity|].
      destruct r; [discriminate|]. exact IHm. }
    rewrite E.
    assert (R : rectangular n m (map (@tl A) t)).
    { split; [rewrite map_length; exact Hn|]. rewrite Forall_forall in *. intros r Hr.
      apply in_map_iff in Hr as (r' & <- & Hr'). apply Hm in Hr'. destruct r'; simpl in *; lia. }
    destruct (IH n _ R Hpos) as [[IH1 IH1'] IH2]. clear IH.
    set (h := flat_map _ t).
    assert (Hh : forall i, nth_error h i = cell t i 0 ).
    { unfold h, cell. clear - Hm. induction Hm as [|r t Hr Ht IHm]; intros i; simpl.
      - destruct i; reflexivity.
      - destruct r as [|x r]; [discriminate|]. destruct i; simpl; [reflexivity|apply IHm]. }
    assert (Hlen : length h = n).
    { unfold h. rewrite <- Hn. clear - Hm. induction Hm as [|r t Hr Ht IHm]; simpl; [reflexivity|].
      destruct r as [|x r]; [discriminate|]. simpl. f_equal. exact IHm. }
    split.
    + split; simpl; [f_equal; exact IH1|constructor; [exact Hlen|exact IH1']].
    + intros i j. destruct j as [|j].
      * unfold cell at 1. simpl. apply Hh.
      * change (S j <? S m) with (j <? m).
        specialize (IH2 i j). unfold cell in *. simpl. rewrite IH2.
        destruct (j <? m); [|reflexivity].
        rewrite nth_error_map. destruct (nth_error t i) as [r|] eqn:Er; simpl; [|reflexivity].
        destruct r as [|x r]; [|reflexivity].
        rewrite Forall_forall in Hm. apply nth_error_In in Er. apply Hm in Er. discriminate.
Qed.
Lemma transpose_rect n m t : rectangular n m t -> 0 < n ->
  rectangular m n (transpose t) /\ forall i j, cell (transpose t) j i = cell t i j.
Proof.
  intros R Hn. pose proof R as [R1 R2]. destruct t as [|r t]; [simpl in R1; lia|].
  unfold transpose. inversion R2 as [|? ? Hr Ht]; subst.
  destruct (zip_star_cell (length r) _ _ R Hn) as [H1 H2]. split; [exact H1|].
  intros i j. rewrite H2. destruct (Nat.ltb_spec j (length r)) as [Hj|Hj]; [reflexivity|].
  unfold cell. destruct (nth_error (r :: t) i) as [r'|] eqn:E; [|reflexivity].
  symmetry. apply nth_error_None. rewrite Forall_forall in R2.
  apply nth_error_In in E. apply R2 in E. lia.
Qed.
Lemma rect_ext n m t1 t2 : rectangular n m t1 -> rectangular n m t2 ->
  (forall i j, cell t1 i j = cell t2 i j) -> t1 = t2.
Proof.
  intros [L1 F1] [L2 F2] Hc.
  assert (Hrow : forall i, nth_error t1 i = nth_error t2 i).
  { intros i. specialize (Hc i). unfold cell in Hc.
    destruct (nth_error t1 i) as [r1|] eqn:E1; destruct (nth_error t2 i) as [r2|] eqn:E2; auto.
    - f_equal. clear - Hc. revert r2 Hc. induction r1 as [|x r1 IH]; intros [|y r2] Hc; auto.
      + specialize (Hc 0). discriminate.
      + specialize (Hc 0). discriminate.
      + pose proof (Hc 0) as H0. simpl in H0. injection H0 as ->. f_equal. apply IH.
        intros j. apply (Hc (S j)).
    - exfalso. apply nth_error_None in E2. assert (i < length t1) by (apply nth_error_Some; congruence). lia.
    - exfalso. apply nth_error_None in E1. assert (i < length t2) by (apply nth_error_Some; congruence). lia. }
  clear - Hrow. revert t2 Hrow. induction t1 as [|x t1 IH]; intros [|y t2] Hr; auto.
  - specialize (Hr 0). discriminate.
  - specialize (Hr 0). discriminate.
  - pose proof (Hr 0) as H0. simpl in H0. injection H0 as ->. f_equal. apply IH.
    intros i. apply (Hr (S i)).
Qed.
End Transpose.

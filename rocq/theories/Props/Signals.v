(** C12: signals. *)
From Coq Require Import List Bool ZArith Lia Sorted Permutation.
From Verif.Base Require Import Str StrFacts Dict DictFacts Sort SortFacts Result.
From Verif.Model Require Import Signals.
From Verif.Spec Require Import Signals.
Import ListNotations.

Lemma after_spec {R} (h : list (op R)) : wf (after h) /\
  forall o x, lookup o (after h) = Some x <-> connected h o x.
Proof.
  induction h as [|[o0 r w|] h [IW IH]]; cbn [after connected].
  - split; [constructor|]. intros o x. cbn. split; [discriminate|tauto].
  - unfold connect. destruct (has o0 (after h)) eqn:E; cbn [fst].
    + split; [exact IW|]. intros o x. rewrite IH. split; [tauto|]. intros [Hc|(<- & _ & Hn)]; [exact Hc|].
      apply has_lookup in E as [y Ey]. apply IH in Ey. exfalso. exact (Hn y Ey).
    + assert (Hn : forall y, ~ connected h o0 y).
      { intros y Hy. apply IH in Hy. unfold has in E. rewrite Hy in E. discriminate. }
      split; [apply wf_set; exact IW|]. intros o x. rewrite lookup_set.
      destruct (eqb_spec o o0) as [Eo|Eo].
      * subst o0. split.
        -- intros [= <-]. right. auto.
        -- intros [Hc|(_ & -> & _)]; [exfalso; exact (Hn x Hc)|reflexivity].
      * rewrite IH. split; [tauto|]. intros [Hc|(-> & _)]; [exact Hc|congruence].
  - split; [constructor|]. intros o x. cbn. split; [discriminate|tauto].
Qed.

Lemma in_order_spec {R} (s : signal R) : wf s ->
  Permutation (in_order s) s /\ StronglySorted Z.lt (map fst (in_order s)).
Proof.
  intros Hw. split; [apply isort_perm|].
  assert (Hp : Permutation (in_order s) s) by apply isort_perm.
  assert (Hs : StronglySorted (fun x y : Z * stored R => Z.leb (fst x) (fst y) = true) (in_order s)).
  { apply isort_sorted.
    - intros x y. destruct (Z.leb_spec (fst x) (fst y)); [auto|]. right. apply Z.leb_le. lia.
    - intros x y z. rewrite !Z.leb_le. lia. }
  assert (Hn : NoDup (map fst (in_order s))).
  { eapply Permutation_NoDup; [|exact Hw]. apply Permutation_sym, Permutation_map. exact Hp. }
  clear Hp. induction Hs as [|a l Hl IH Ha]; [constructor|].
  cbn [map] in *. inversion Hn as [|? ? Hni Hn']; subst. constructor; [auto|].
  apply Forall_map. rewrite Forall_forall in Ha |- *. intros b Hb. specialize (Ha b Hb). apply Z.leb_le in Ha.
  assert (fst a <> fst b) by (intros E; apply Hni; rewrite E; apply in_map; exact Hb). lia.
Qed.

Lemma tag_emit_runs {R V St} (call : R -> St -> V * St) alive enabled l : forall st,
  runs call alive enabled (map snd l) st
    (fst (tag_emit_loop call alive enabled l st)) (snd (tag_emit_loop call alive enabled l st)).
Proof.
  induction l as [|[o x] l IH]; intros st; cbn [tag_emit_loop map snd]; [apply runs_nil|].
  assert (Hr : forall r, exists_now alive x r -> deref alive x = Some r).
  { intros r [->|[-> E]]; cbn; [reflexivity|rewrite E; reflexivity]. }
  destruct (deref alive x) as [r|] eqn:E.
  - assert (Hx : exists_now alive x r).
    { destruct x as [r'|r']; cbn in E; [destruct (alive r') eqn:Ea; [|discriminate]|]; injection E as ->.
      - right. auto. - left. auto. }
    destruct (enabled r st) eqn:Ee.
    + destruct (call r st) as [v st1] eqn:Ec. specialize (IH st1).
      destruct (tag_emit_loop call alive enabled l st1) as [vs st2]. eapply runs_call; eauto.
    + specialize (IH st). destruct (tag_emit_loop call alive enabled l st) as [vs st2]. eapply runs_off; eauto.
  - destruct x as [r'|r']; cbn in E; [destruct (alive r') eqn:Ea; [discriminate|]|discriminate].
    specialize (IH st). destruct (tag_emit_loop call alive enabled l st) as [vs st2]. apply runs_gone; auto.
Qed.

Lemma emit_tag_emit {R V St} (call : R -> St -> V * St) alive l : forall st,
  emit_loop call alive l st = tag_emit_loop call alive (fun _ _ => true) l st.
Proof.
  induction l as [|[o x] l IH]; intros st; cbn [emit_loop tag_emit_loop]; [reflexivity|].
  destruct (deref alive x) as [r|]; [destruct (call r st)|]; rewrite IH; reflexivity.
Qed.

(** C12: after any history of connections and resets, emitting runs exactly the
    connected receivers, each once per connection, in strictly ascending order. *)
Theorem C12_emit :
  forall R V St (h : list (op R)) (call : R -> St -> V * St) alive st,
    exists l : list (Z * stored R),
      (forall o x, In (o, x) l <-> connected h o x) /\
      StronglySorted Z.lt (map fst l) /\
      runs call alive (fun _ _ => true) (map snd l) st
        (fst (emit call alive (after h) st)) (snd (emit call alive (after h) st)).
Proof.
  intros R V St h call alive st. destruct (after_spec h) as [Hw Hl]. destruct (in_order_spec _ Hw) as [Hp Hs].
  exists (in_order (after h)). split; [|split; [exact Hs|]].
  - intros o x. rewrite <- Hl. split.
    + intros Hi. apply In_lookup; [exact Hw|]. eapply Permutation_in; eauto.
    + intros E. apply lookup_In in E. eapply Permutation_in; [apply Permutation_sym; exact Hp|exact E].
  - unfold emit. rewrite emit_tag_emit. apply tag_emit_runs.
Qed.

(** C12: the same for the signal of new tags, which leaves out the receivers
    that the tag switches off at the time of their turn. *)
Theorem C12_emit_tag :
  forall R V St (h : list (op R)) (call : R -> St -> V * St) alive enabled st,
    exists l : list (Z * stored R),
      (forall o x, In (o, x) l <-> connected h o x) /\
      StronglySorted Z.lt (map fst l) /\
      runs call alive enabled (map snd l) st
        (fst (tag_emit call alive enabled (after h) st)) (snd (tag_emit call alive enabled (after h) st)).
Proof.
  intros R V St h call alive enabled st. destruct (after_spec h) as [Hw Hl]. destruct (in_order_spec _ Hw) as [Hp Hs].
  exists (in_order (after h)). split; [|split; [exact Hs|]].
  - intros o x. rewrite <- Hl. split.
    + intros Hi. apply In_lookup; [exact Hw|]. eapply Permutation_in; eauto.
    + intros E. apply lookup_In in E. eapply Permutation_in; [apply Permutation_sym; exact Hp|exact E].
  - apply tag_emit_runs.
Qed.

(** C12: connecting at an order in use, and only that, is refused, and changes
    nothing. *)
Theorem C12_duplicate_refused :
  forall R (h : list (op R)) r o weak,
    (snd (connect (after h) r o weak) = Some DuplicateSignal <-> exists x, connected h o x) /\
    (snd (connect (after h) r o weak) = None <-> forall x, ~ connected h o x) /\
    ((exists x, connected h o x) -> fst (connect (after h) r o weak) = after h).
Proof.
  intros R h r o weak. destruct (after_spec h) as [Hw Hl]. unfold connect.
  destruct (has o (after h)) eqn:E; cbn [fst snd].
  - apply has_lookup in E as [y Ey]. apply Hl in Ey. repeat split; eauto; try discriminate.
    intros H. exfalso. exact (H y Ey).
  - assert (Hn : forall x, ~ connected h o x).
    { intros x Hx. apply Hl in Hx. unfold has in E. rewrite Hx in E. discriminate. }
    repeat split; try discriminate; auto; intros [x Hx]; exfalso; exact (Hn x Hx).
Qed.

(** C12: asking for signals by name: the same name gives the same signal,
    different names give different ones. *)
Fixpoint ask (ns : dict str nat * nat) (names : list str) : list nat :=
  match names with
  | [] => []
  | n :: ns' => fst (get_signal ns n) :: ask (snd (get_signal ns n)) ns'
  end.
Theorem C12_signal_by_name :
  forall names i j a b x y,
    nth_error names i = Some a -> nth_error names j = Some b ->
    nth_error (ask ([], 0) names) i = Some x -> nth_error (ask ([], 0) names) j = Some y ->
    (x = y <-> a = b).
Proof.
  assert (G : forall names d n i a x, wf d ->
    (forall k v, lookup k d = Some v -> v < n) -> (forall k k' v, lookup k d = Some v -> lookup k' d = Some v -> k = k') ->
    exists d' n', wf d' /\ (forall k v, lookup k d = Some v -> lookup k d' = Some v) /\
    (forall k k' v, lookup k d' = Some v -> lookup k' d' = Some v -> k = k') /\
    (nth_error names i = Some a -> nth_error (ask (d, n) names) i = Some x -> lookup a d' = Some x) /\
    (forall j b y, nth_error names j = Some b -> nth_error (ask (d, n) names) j = Some y -> lookup b d' = Some y) /\
    (forall k v, lookup k d' = Some v -> v < n')).
  { induction names as [|m names IH]; intros d n i a x Hw Hlt Hinj.
    - exists d, n. repeat split; auto; [destruct i; discriminate|intros j b y Hj; destruct j; discriminate].
    - cbn [ask]. unfold get_signal at 1 2 3 4. cbn [fst snd].
      assert (Hgen : forall d1 n1 v, wf d1 -> (forall k v, lookup k d1 = Some v -> v < n1) ->
        (forall k k' v, lookup k d1 = Some v -> lookup k' d1 = Some v -> k = k') ->
        (forall k v, lookup k d = Some v -> lookup k d1 = Some v) -> lookup m d1 = Some v ->
        exists d' n', wf d' /\ (forall k v, lookup k d = Some v -> lookup k d' = Some v) /\
        (forall k k' v, lookup k d' = Some v -> lookup k' d' = Some v -> k = k') /\
        (nth_error (m :: names) i = Some a -> nth_error (v :: ask (d1, n1) names) i = Some x -> lookup a d' = Some x) /\
        (forall j b y, nth_error (m :: names) j = Some b -> nth_error (v :: ask (d1, n1) names) j = Some y -> lookup b d' = Some y) /\
        (forall k v, lookup k d' = Some v -> v < n')).
      { intros d1 n1 v Hw1 Hlt1 Hinj1 Hsub Hm.
        destruct (IH d1 n1 0 a x Hw1 Hlt1 Hinj1) as (d' & n' & D1 & D2 & D3 & _ & D5 & D6).
        assert (Hall : forall j b y, nth_error (m :: names) j = Some b -> nth_error (v :: ask (d1, n1) names) j = Some y -> lookup b d' = Some y).
        { intros [|j] b y; cbn [nth_error]; [intros [= <-] [= <-]; auto|apply D5]. }
        exists d', n'. repeat split; auto. apply Hall. }
      unfold get_signal. cbn [fst snd]. destruct (lookup m d) as [v|] eqn:E; cbn [fst snd].
      + apply Hgen; auto.
      + apply Hgen.
        * apply wf_set. exact Hw.
        * intros k v. rewrite lookup_set. destruct (eqb k m); [intros [= <-]; lia|]. intros Hk. apply Hlt in Hk. lia.
        * intros k k' v. rewrite !lookup_set.
          destruct (eqb_spec k m) as [Ek|Ek], (eqb_spec k' m) as [Ek'|Ek'].
          -- congruence.
          -- intros [= <-] H. apply Hlt in H. lia.
          -- intros H [= <-]. apply Hlt in H. lia.
          -- eauto.
        * intros k v Hk. rewrite lookup_set. destruct (eqb_spec k m) as [->|]; [congruence|exact Hk].
        * rewrite lookup_set, eqb_refl. reflexivity. }
  intros names i j a b x y Hi Hj Ex Ey.
  destruct (G names [] 0 i a x) as (d' & n' & _ & _ & Hinj & _ & Hall & _).
  - constructor. - discriminate. - discriminate.
  - pose proof (Hall i a x Hi Ex) as A. pose proof (Hall j b y Hj Ey) as B.
    split; [intros ->; eauto|intros ->; congruence].
Qed.

Example C12_ex :
  emit (fun r st => (r, r :: st)) (fun r => negb (Nat.eqb r 7))
    (after [Connect 20 3 false; Connect 10 8 true; Connect (-5) 7 true; Connect 10 9 false; Reset; Connect 1 1 false]) []
  = ([None; Some 9; Some 3], [3; 9]).
Proof. reflexivity. Qed.
Example C12_ex_connected : connected [Connect 10 8 true; Connect 10 9 false; Reset] 10 (Strong 9).
Proof. left. right. repeat split; auto. Qed.

(** Facts about Base/PyText.v *)
From Coq Require Import List NArith Bool Arith Lia.
From Verif.Base Require Import Str StrFacts PyText.
Import ListNotations.

Lemma first_match_None {A B} (f : A -> option B) l :
  first_match f l = None <-> forall x, In x l -> f x = None.
Proof.
  induction l as [|a l IH]; simpl; [tauto|]. destruct (f a) eqn:E.
  - split; [discriminate|]. intros H. rewrite H in E by auto. discriminate.
  - rewrite IH. split; intros H x; [intros [<-|]; auto|auto].
Qed.

Lemma first_match_Some {A B} (f : A -> option B) l b :
  first_match f l = Some b <->
  exists l1 x l2, l = l1 ++ x :: l2 /\ f x = Some b /\ forall y, In y l1 -> f y = None.
Proof.
  split.
  - induction l as [|a l IH]; simpl; [discriminate|]. destruct (f a) eqn:E.
    + intros [= <-]. exists nil, a, l. repeat split; auto. simpl. tauto.
    + intros H. destruct (IH H) as (l1 & x & l2 & -> & Hx & Hn).
      exists (a :: l1), x, l2. repeat split; auto. intros y [<-|]; auto.
  - intros (l1 & x & l2 & -> & Hx & Hn). induction l1 as [|a l1 IH]; simpl.
    + rewrite Hx. reflexivity.
    + rewrite Hn by (left; reflexivity). apply IH. intros y Hy. apply Hn. right. exact Hy.
Qed.

Lemma first_match_ext {A B} (f g : A -> option B) l :
  (forall x, In x l -> f x = g x) -> first_match f l = first_match g l.
Proof.
  induction l as [|a l IH]; simpl; intros H; [reflexivity|].
  rewrite (H a) by auto. rewrite IH by auto. reflexivity.
Qed.

Lemma star_greedy_In {A} (f : A -> bool) x p r :
  In (p, r) (star_greedy f x) <-> x = p ++ r /\ forallb f p = true.
Proof.
  revert p r. induction x as [|c x IH]; intros p r; cbn [star_greedy].
  - simpl. split.
    + intros [[= <- <-]|[]]. auto.
    + intros [E _]. symmetry in E. apply app_eq_nil in E as [-> ->]. auto.
  - rewrite in_app_iff. split.
    + intros [H|[[= <- <-]|[]]]; [|auto].
      destruct (f c) eqn:E; [|destruct H].
      apply in_map_iff in H as ([p' r'] & [= <- <-] & H). apply IH in H as [-> Hp].
      simpl. rewrite E. auto.
    + intros [E Hp]. destruct p as [|d p]; [right; left; simpl in E; subst; reflexivity|].
      injection E as <- ->. simpl in Hp. apply andb_true_iff in Hp as [Hc Hp]. rewrite Hc.
      left. apply in_map_iff. exists (p, r). split; [reflexivity|]. apply IH. auto.
Qed.

Lemma star_greedy_first {A} (f : A -> bool) p r :
  forallb f p = true -> (forall c r', r = c :: r' -> f c = false) ->
  exists l, star_greedy f (p ++ r) = (p, r) :: l.
Proof.
  intros Hp Hr. induction p as [|c p IH].
  - simpl. destruct r as [|c r]; simpl; [eexists; reflexivity|].
    rewrite (Hr c r eq_refl). eexists. reflexivity.
  - simpl in Hp. apply andb_true_iff in Hp as [Hc Hp]. destruct (IH Hp) as [l El].
    simpl. rewrite Hc, El. simpl. eexists. reflexivity.
Qed.

(** the first candidate of a greedy repetition decides if it succeeds *)
Lemma first_match_greedy {A B} (f : A -> bool) (k : list A * list A -> option B) p r b :
  forallb f p = true -> (forall c r', r = c :: r' -> f c = false) ->
  k (p, r) = Some b -> first_match k (star_greedy f (p ++ r)) = Some b.
Proof.
  intros Hp Hr Hk. destruct (star_greedy_first f p r Hp Hr) as [l ->]. simpl.
  rewrite Hk. reflexivity.
Qed.

(** the last candidate (the empty match) decides if all others fail *)
Lemma first_match_greedy_last {A B} (f : A -> bool) (k : list A * list A -> option B) x :
  (forall p r, x = p ++ r -> p <> nil -> forallb f p = true -> k (p, r) = None) ->
  first_match k (star_greedy f x) = k (nil, x).
Proof.
  intros H. destruct x as [|c x].
  - simpl. destruct (k (nil, nil)); reflexivity.
  - cbn [star_greedy].
    assert (E : forall l, (forall y, In y l -> k y = None) ->
              first_match k (l ++ [(nil, c :: x)]) = k (nil, c :: x)).
    { induction l as [|y l IH]; simpl; intros Hl.
      - destruct (k _); reflexivity.
      - rewrite Hl by auto. apply IH. auto. }
    apply E. intros [p r] Hy. destruct (f c) eqn:Ec; [|destruct Hy].
    apply in_map_iff in Hy as ([p' r'] & [= <- <-] & Hy). apply star_greedy_In in Hy as [-> Hp].
    apply H; [reflexivity|discriminate|]. simpl. rewrite Ec. exact Hp.
Qed.

Lemma star_lazy_In {A} (f : A -> bool) x p r :
  In (p, r) (star_lazy f x) <-> x = p ++ r /\ forallb f p = true.
Proof.
  revert p r. induction x as [|c x IH]; intros p r; cbn [star_lazy].
  - simpl. split.
    + intros [[= <- <-]|[]]. auto.
    + intros [E _]. symmetry in E. apply app_eq_nil in E as [-> ->]. auto.
  - split.
    + intros [[= <- <-]|H]; [auto|].
      destruct (f c) eqn:E; [|destruct H].
      apply in_map_iff in H as ([p' r'] & [= <- <-] & H). apply IH in H as [-> Hp].
      simpl. rewrite E. auto.
    + intros [E Hp]. destruct p as [|d p]; [left; simpl in E; subst; reflexivity|].
      injection E as <- ->. simpl in Hp. apply andb_true_iff in Hp as [Hc Hp]. rewrite Hc.
      right. apply in_map_iff. exists (p, r). split; [reflexivity|]. apply IH. auto.
Qed.

(** a lazy repetition stops at the first success *)
Lemma first_match_star_lazy {A B} (f : A -> bool) (k : list A * list A -> option B) p r :
  forallb f p = true ->
  (forall a b, p = a ++ b -> b <> nil -> k (a, b ++ r) = None) ->
  forall v, k (p, r) = Some v -> first_match k (star_lazy f (p ++ r)) = Some v.
Proof.
  revert k. induction p as [|c p IH]; intros k Hp Hn v Hv.
  - simpl. destruct r; simpl; rewrite Hv; reflexivity.
  - cbn [app star_lazy first_match].
    pose proof (Hn nil (c :: p) eq_refl ltac:(discriminate)) as H0. cbn [app] in H0. rewrite H0.
    simpl in Hp. apply andb_true_iff in Hp as [Hc Hp]. rewrite Hc.
    assert (E : forall l, first_match k (map (fun q => (c :: fst q, snd q)) l) =
                first_match (fun q => k (c :: fst q, snd q)) l).
    { induction l as [|q l IHl]; simpl; [reflexivity|]. rewrite IHl. reflexivity. }
    rewrite E. apply IH; [exact Hp| |exact Hv].
    intros a b -> Hb. simpl. apply (Hn (c :: a) b); auto.
Qed.

Lemma first_match_plus_lazy {A B} (f : A -> bool) (k : list A * list A -> option B) p r :
  p <> nil -> forallb f p = true ->
  (forall a b, p = a ++ b -> a <> nil -> b <> nil -> k (a, b ++ r) = None) ->
  forall v, k (p, r) = Some v -> first_match k (plus_lazy f (p ++ r)) = Some v.
Proof.
  destruct p as [|c p]; [congruence|]. intros _ Hp Hn v Hv.
  simpl in Hp. apply andb_true_iff in Hp as [Hc Hp]. cbn [app plus_lazy]. rewrite Hc.
  assert (E : forall l, first_match k (map (fun q => (c :: fst q, snd q)) l) =
              first_match (fun q => k (c :: fst q, snd q)) l).
  { induction l as [|q l IHl]; simpl; [reflexivity|]. rewrite IHl. reflexivity. }
  rewrite E. apply first_match_star_lazy; [exact Hp| |exact Hv].
  intros a b -> Hb. simpl. apply (Hn (c :: a) b); auto. discriminate.
Qed.

Lemma eat_iff {A} `{EqDec A} (p x r : list A) : eat p x = Some r <-> x = p ++ r.
Proof.
  revert x. induction p as [|c p IH]; intros x; simpl.
  - split; [intros [= ->]; reflexivity|intros ->; reflexivity].
  - destruct x as [|d x]; [split; discriminate|].
    destruct (eqb_spec c d) as [->|Hne].
    + rewrite IH. split; [intros ->; reflexivity|intros [= ->]; reflexivity].
    + split; [discriminate|]. intros [= E _]. congruence.
Qed.

(** ** Lines *)
Lemma splitlines_from_app l : forall cur c x,
  Forall (fun d => is_linebreak d = false) l -> is_linebreak c = true -> c <> 13%N ->
  splitlines_from cur (l ++ c :: x) = (rev cur ++ l) :: splitlines_from nil x.
Proof.
  induction l as [|d l IH]; intros cur c x Hl Hc H13.
  - simpl. rewrite Hc, app_nil_r. destruct x as [|d x]; [reflexivity|].
    destruct (N.eqb_spec c 13); [contradiction|]. reflexivity.
  - apply Forall_cons_iff in Hl as [Hd Hl]. simpl. rewrite Hd.
    rewrite (IH (d :: cur)) by assumption. simpl. rewrite <- app_assoc. reflexivity.
Qed.

Lemma splitlines_from_end l : forall cur,
  Forall (fun d => is_linebreak d = false) l ->
  splitlines_from cur l = match rev cur ++ l with nil => nil | y => [y] end.
Proof.
  induction l as [|d l IH]; intros cur Hl.
  - simpl. rewrite app_nil_r. destruct cur as [|c cur]; [reflexivity|]. simpl.
    destruct (rev cur ++ [c]) eqn:E; [|reflexivity]. destruct (rev cur); discriminate.
  - apply Forall_cons_iff in Hl as [Hd Hl]. simpl. rewrite Hd, IH by assumption.
    simpl. rewrite <- app_assoc. reflexivity.
Qed.

Lemma splitlines_join ls :
  Forall (fun l => Forall (fun d => is_linebreak d = false) l) ls ->
  last ls [0%N] <> nil -> splitlines (join [10%N] ls) = ls.
Proof.
  unfold splitlines. induction ls as [|l ls IH]; intros Hl Hn; [reflexivity|].
  apply Forall_cons_iff in Hl as [H1 H2]. destruct ls as [|l' ls].
  - cbn [join]. rewrite splitlines_from_end by exact H1. simpl. destruct l; [simpl in Hn; congruence|reflexivity].
  - rewrite join_cons by discriminate. change ([10%N] ++ ?x) with (10%N :: x).
    rewrite splitlines_from_app by (auto; discriminate). f_equal. apply IH; auto.
Qed.

Lemma replace2_id a b new x :
  (forall p q, x <> p ++ a :: b :: q) -> replace2 a b new x = x.
Proof.
  induction x as [|c x IH]; intros H; [reflexivity|].
  assert (Hx : replace2 a b new x = x).
  { apply IH. intros p q E. apply (H (c :: p) q). rewrite E. reflexivity. }
  cbn [replace2]. destruct x as [|d x]; [reflexivity|].
  destruct (N.eqb_spec c a) as [->|]; destruct (N.eqb_spec d b) as [->|]; cbn [andb];
    try (rewrite Hx; reflexivity).
  exfalso. apply (H nil x). reflexivity.
Qed.

(** ** split_s *)
Lemma split_from_skip sep : forall a x, split_from sep (length a) (a ++ x) = split_from sep 0 x.
Proof. induction a as [|c a IH]; intros x; [reflexivity|]. cbn [app length split_from]. apply IH. Qed.
Lemma split_from_nonnil sep : forall x k, split_from sep k x <> [].
Proof.
  induction x as [|c x IH]; intros k; cbn [split_from]; [discriminate|].
  destruct k; [|apply IH]. destruct (startswith (c :: x) sep); [discriminate|].
  destruct (split_from sep 0 x); discriminate.
Qed.
(** [sep] does not occur *)
Lemma split_s_none sep x : contains x sep = false -> split_s sep x = [x].
Proof.
  unfold split_s. induction x as [|c x IH]; intros H; [reflexivity|].
  cbn [contains] in H. apply orb_false_iff in H as [H1 H2].
  cbn [split_from]. rewrite H1. rewrite (IH H2). reflexivity.
Qed.
(** the first occurrence is after [d] *)
Lemma split_s_first sep d l : sep <> [] ->
  (forall a b, d ++ sep ++ l = a ++ sep ++ b -> length d <= length a) ->
  split_s sep (d ++ sep ++ l) = d :: split_s sep l.
Proof.
  unfold split_s. intros Hs. induction d as [|c d IH]; intros H.
  - cbn [app]. destruct sep as [|s0 sep0]; [congruence|]. cbn [app split_from].
    assert (E : startswith (s0 :: sep0 ++ l) (s0 :: sep0) = true).
    { apply startswith_iff. exists l. reflexivity. }
    rewrite E. f_equal. cbn [length]. rewrite Nat.sub_succ, Nat.sub_0_r. apply split_from_skip.
  - cbn [app split_from]. destruct (startswith (c :: d ++ sep ++ l) sep) eqn:E.
    + apply startswith_iff in E as [r E]. specialize (H [] r). cbn [app length] in H. rewrite E in H.
      specialize (H eq_refl). lia.
    + rewrite IH; [reflexivity|]. intros a b E2. specialize (H (c :: a) b). cbn [app length] in H.
      rewrite E2 in H. specialize (H eq_refl). lia.
Qed.

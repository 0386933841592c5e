(** Facts about the string functions of [Base/Str.v]. *)
From Coq Require Import List NArith Bool Arith Lia.
From Verif.Base Require Import Str.
Import ListNotations.

Lemma eqb_refl {A} `{EqDec A} (x : A) : eqb x x = true.
Proof. destruct (eqb_spec x x); congruence. Qed.
Lemma eqb_eq {A} `{EqDec A} (x y : A) : eqb x y = true <-> x = y.
Proof. destruct (eqb_spec x y); split; congruence. Qed.
Lemma eqb_neq {A} `{EqDec A} (x y : A) : eqb x y = false <-> x <> y.
Proof. destruct (eqb_spec x y); split; congruence. Qed.
Lemma eqb_sym {A} `{EqDec A} (x y : A) : eqb x y = eqb y x.
Proof. destruct (eqb_spec x y), (eqb_spec y x); congruence. Qed.
Lemma dec_eq {A} `{EqDec A} (x y : A) : {x = y} + {x <> y}.
Proof. destruct (eqb_spec x y); auto. Qed.

Lemma mem_In {A} `{EqDec A} (x : A) l : mem x l = true <-> In x l.
Proof.
  induction l as [|y l IH]; simpl; [split; [discriminate|tauto]|].
  rewrite orb_true_iff, eqb_eq, IH. intuition congruence.
Qed.
Lemma mem_not_In {A} `{EqDec A} (x : A) l : mem x l = false <-> ~ In x l.
Proof. rewrite <- mem_In. destruct (mem x l); split; congruence. Qed.

Lemma startswith_iff {A} `{EqDec A} (l p : list A) :
  startswith l p = true <-> exists t, l = p ++ t.
Proof.
  revert l; induction p as [|c p IH]; intros [|d l]; simpl.
  - split; [intros _; exists nil; reflexivity|reflexivity].
  - split; [intros _; eexists; reflexivity|reflexivity].
  - split; [discriminate|]. intros [t E]; discriminate.
  - rewrite andb_true_iff, eqb_eq, IH. split.
    + intros [-> [t ->]]. exists t; reflexivity.
    + intros [t E]. injection E as -> ->. split; [reflexivity|exists t; reflexivity].
Qed.

Lemma endswith_iff {A} `{EqDec A} (l p : list A) :
  endswith l p = true <-> exists t, l = t ++ p.
Proof.
  unfold endswith. rewrite startswith_iff. split; intros [t E].
  - exists (rev t). apply (f_equal (@rev _)) in E.
    rewrite rev_app_distr, !rev_involutive in E. exact E.
  - exists (rev t). rewrite E, rev_app_distr. reflexivity.
Qed.

Lemma contains_iff {A} `{EqDec A} (l p : list A) :
  contains l p = true <-> exists a b, l = a ++ p ++ b.
Proof.
  induction l as [|d l IH].
  - cbn [contains]. rewrite orb_false_r, startswith_iff. split.
    + intros [t E]. exists nil, t. exact E.
    + intros (a & b & E). symmetry in E. apply app_eq_nil in E as [-> E].
      exists b. symmetry. exact E.
  - cbn [contains]. rewrite orb_true_iff, startswith_iff, IH. split.
    + intros [[t E]|(a & b & E)].
      * exists nil, t. exact E.
      * exists (d :: a), b. rewrite E. reflexivity.
    + intros ([|e a] & b & E).
      * left. exists b. exact E.
      * right. injection E as -> E. exists a, b. exact E.
Qed.

Lemma drop_last_app {A} (a b : list A) : drop_last (length b) (a ++ b) = a.
Proof.
  unfold drop_last. rewrite app_length.
  replace (length a + length b - length b) with (length a) by lia.
  rewrite firstn_app, firstn_all, Nat.sub_diag. simpl. apply app_nil_r.
Qed.

(** ** Stripping *)
Lemma lstrip_p_decomp {A} (f : A -> bool) l :
  exists p, l = p ++ lstrip_p f l /\ forallb f p = true /\
  (forall c r, lstrip_p f l = c :: r -> f c = false).
Proof.
  induction l as [|c l IH]; simpl.
  - exists nil. repeat split. discriminate.
  - destruct (f c) eqn:E.
    + destruct IH as (p & E1 & E2 & E3). exists (c :: p). simpl. rewrite E, E2.
      repeat split; auto. f_equal. exact E1.
    + exists nil. repeat split. intros c' r' [= <- _]. exact E.
Qed.

Lemma lstrip_p_unique {A} (f : A -> bool) p m :
  forallb f p = true -> (forall c r, m = c :: r -> f c = false) ->
  lstrip_p f (p ++ m) = m.
Proof.
  induction p as [|c p IH]; simpl; intros Hp Hm.
  - destruct m as [|c r]; [reflexivity|]. simpl. rewrite (Hm c r eq_refl). reflexivity.
  - apply andb_true_iff in Hp as [-> Hp]. auto.
Qed.

Lemma forallb_rev {A} (f : A -> bool) l : forallb f (rev l) = forallb f l.
Proof.
  induction l as [|a l IH]; [reflexivity|]. simpl.
  rewrite forallb_app, IH. simpl. rewrite andb_true_r. apply andb_comm.
Qed.

Lemma rstrip_p_decomp {A} (f : A -> bool) l :
  exists q, l = rstrip_p f l ++ q /\ forallb f q = true /\
  (forall c r, rstrip_p f l = r ++ [c] -> f c = false).
Proof.
  unfold rstrip_p. destruct (lstrip_p_decomp f (rev l)) as (p & E1 & E2 & E3).
  exists (rev p). split; [|split].
  - rewrite <- (rev_involutive l) at 1. rewrite E1 at 1. apply rev_app_distr.
  - rewrite forallb_rev. exact E2.
  - intros c r E. apply (E3 c (rev r)).
    apply (f_equal (@rev _)) in E. rewrite rev_involutive, rev_app_distr in E. exact E.
Qed.

Lemma rstrip_p_unique {A} (f : A -> bool) m q :
  forallb f q = true -> (forall c r, m = r ++ [c] -> f c = false) ->
  rstrip_p f (m ++ q) = m.
Proof.
  intros Hq Hm. unfold rstrip_p. rewrite rev_app_distr, lstrip_p_unique.
  - apply rev_involutive.
  - rewrite forallb_rev. exact Hq.
  - intros c r E. apply (Hm c (rev r)). apply (f_equal (@rev _)) in E.
    rewrite rev_involutive in E. exact E.
Qed.

(** Characterisation of [strip]: [m] is what is left of [l] when strippable
    characters are removed at both ends. *)
Definition stripped {A} (f : A -> bool) (m : list A) : Prop :=
  (forall c r, m = c :: r -> f c = false) /\ (forall c r, m = r ++ [c] -> f c = false).

Lemma strip_p_decomp {A} (f : A -> bool) l :
  exists p q, l = p ++ strip_p f l ++ q /\ forallb f p = true /\ forallb f q = true /\
  stripped f (strip_p f l).
Proof.
  unfold strip_p. destruct (lstrip_p_decomp f l) as (p & E1 & E2 & E3).
  destruct (rstrip_p_decomp f (lstrip_p f l)) as (q & F1 & F2 & F3).
  exists p, q. rewrite <- F1. repeat split; auto.
  intros c r E. rewrite E in F1. apply (E3 c (r ++ q)). rewrite F1. reflexivity.
Qed.

Lemma strip_p_unique {A} (f : A -> bool) p m q :
  forallb f p = true -> forallb f q = true -> stripped f m ->
  strip_p f (p ++ m ++ q) = m.
Proof.
  intros Hp Hq [H1 H2]. unfold strip_p.
  destruct m as [|c m].
  - simpl. rewrite <- (app_nil_r (p ++ q)), lstrip_p_unique; [reflexivity| |discriminate].
    rewrite forallb_app, Hp, Hq. reflexivity.
  - rewrite lstrip_p_unique; auto.
    + apply rstrip_p_unique; auto.
    + intros c' r' E. injection E as <- _. apply (H1 c m eq_refl).
Qed.

Lemma strip_p_id {A} (f : A -> bool) m : stripped f m -> strip_p f m = m.
Proof.
  intros H. rewrite <- (app_nil_r m) at 1. apply (strip_p_unique f nil m nil); auto.
Qed.

Lemma strip_p_idem {A} (f : A -> bool) l : strip_p f (strip_p f l) = strip_p f l.
Proof.
  destruct (strip_p_decomp f l) as (p & q & _ & _ & _ & H). apply strip_p_id. exact H.
Qed.

Lemma strip_p_nil_iff {A} (f : A -> bool) l : strip_p f l = nil <-> forallb f l = true.
Proof.
  destruct (strip_p_decomp f l) as (p & q & E & Hp & Hq & [H1 H2]). split.
  - intros E0. rewrite E0 in E. rewrite E, forallb_app, forallb_app, Hp, Hq. reflexivity.
  - intros H. destruct (strip_p f l) as [|c m]; [reflexivity|].
    rewrite E in H. rewrite forallb_app in H. apply andb_true_iff in H as [_ H].
    simpl in H. rewrite (H1 c m eq_refl) in H. discriminate.
Qed.

(** ** Joining and splitting *)
Lemma join_cons {A} (sep w : list A) l :
  l <> nil -> join sep (w :: l) = w ++ sep ++ join sep l.
Proof. destruct l; [congruence|reflexivity]. Qed.

Lemma split_c_nonnil {A} `{EqDec A} (c : A) l : split_c c l <> nil.
Proof.
  destruct l as [|d l]; simpl; [discriminate|].
  destruct (eqb c d); [discriminate|]. destruct (split_c c l); discriminate.
Qed.

Lemma join_split_c {A} `{EqDec A} (c : A) l : join [c] (split_c c l) = l.
Proof.
  induction l as [|d l IH]; [reflexivity|]. simpl.
  pose proof (split_c_nonnil c l) as N.
  destruct (eqb_spec c d) as [<-|Hne].
  - destruct (split_c c l) as [|w ws]; [congruence|]. cbn [join]. cbn [app]. f_equal. exact IH.
  - destruct (split_c c l) as [|w ws]; [congruence|].
    destruct ws; cbn [join] in *; rewrite <- IH; reflexivity.
Qed.

Lemma split_c_no_sep {A} `{EqDec A} (c : A) l w : In w (split_c c l) -> ~ In c w.
Proof.
  revert w; induction l as [|d l IH]; simpl; intros w.
  - intros [<-|[]]. simpl. tauto.
  - pose proof (split_c_nonnil c l) as N.
    destruct (eqb_spec c d) as [<-|Hne].
    + intros [<-|Hw]; [simpl; tauto|]. auto.
    + destruct (split_c c l) as [|w' ws]; [congruence|].
      intros [<-|Hw].
      * simpl. intros [->|Hin]; [congruence|]. apply (IH w' (or_introl eq_refl) Hin).
      * apply IH. right. exact Hw.
Qed.

Lemma split_c_fresh {A} `{EqDec A} (c : A) l : ~ In c l -> split_c c l = [l].
Proof.
  induction l as [|d l IH]; simpl; intros Hn; [reflexivity|].
  destruct (eqb_spec c d) as [->|_]; [tauto|].
  rewrite IH by tauto. reflexivity.
Qed.

Lemma split_c_app {A} `{EqDec A} (c : A) a b :
  ~ In c a -> split_c c (a ++ c :: b) = a :: split_c c b.
Proof.
  induction a as [|d a IH]; simpl; intros Hn.
  - rewrite eqb_refl. reflexivity.
  - destruct (eqb_spec c d) as [->|_]; [tauto|].
    rewrite IH by tauto. reflexivity.
Qed.

Lemma split_c_join {A} `{EqDec A} (c : A) l :
  l <> nil -> (forall w, In w l -> ~ In c w) -> split_c c (join [c] l) = l.
Proof.
  induction l as [|w l IH]; [congruence|]. intros _ Hw.
  destruct l as [|w' l].
  - simpl. apply split_c_fresh. apply Hw. left. reflexivity.
  - rewrite join_cons by discriminate.
    change ([c] ++ join [c] (w' :: l)) with (c :: join [c] (w' :: l)).
    rewrite split_c_app by (apply Hw; left; reflexivity).
    rewrite IH; [reflexivity|discriminate|]. intros v Hv. apply Hw. right. exact Hv.
Qed.

(** ** Character classes *)
Lemma is_space_cases c : is_space c = true ->
  (9 <= c <= 13 \/ 28 <= c <= 32 \/ 133 <= c)%N.
Proof.
  unfold is_space. rewrite !orb_true_iff, !andb_true_iff, !N.leb_le, !N.eqb_eq. lia.
Qed.
Lemma ascii_word_cases c : ascii_word c = true ->
  (48 <= c <= 57 \/ 65 <= c <= 90 \/ c = 95 \/ 97 <= c <= 122)%N.
Proof.
  unfold ascii_word. rewrite !orb_true_iff, !andb_true_iff, !N.leb_le, !N.eqb_eq. lia.
Qed.
Lemma is_word_not_space uw c : is_word uw c = true -> is_space c = false.
Proof.
  unfold is_word. destruct (is_space c) eqn:E; [|reflexivity].
  apply is_space_cases in E. destruct (N.ltb_spec c 128) as [Hc|Hc].
  - intros Hk. apply ascii_word_cases in Hk. lia.
  - simpl. rewrite andb_false_r. discriminate.
Qed.

(** The white space of the regex package is white space. *)
Lemma rx_space_space c : rx_space c = true -> is_space c = true.
Proof. unfold rx_space. intros H. apply andb_true_iff in H. apply H. Qed.
Lemma not_space_rx c : is_space c = false -> rx_space c = false.
Proof. unfold rx_space. intros ->. reflexivity. Qed.

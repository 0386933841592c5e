(** C90: the order of labels *)
From Coq Require Import List Bool Arith NArith Lia Permutation Sorted.
From Verif.Base Require Import Str StrFacts Sort SortFacts.
From Verif.Model Require Import LabelOrder.
From Verif.Spec Require Import LabelOrder.
Import ListNotations.

Lemma text_eq_iff a : forall b, text_eq a b = true <-> a = b.
Proof.
  induction a as [|x a IH]; intros [|y b]; cbn [text_eq]; split; try discriminate; auto.
  - rewrite andb_true_iff, N.eqb_eq, IH. intros [-> ->]; reflexivity.
  - intros H. injection H as -> ->. rewrite N.eqb_refl. now apply IH.
Qed.
Lemma text_lt_iff a : forall b, text_lt a b = true <-> text_before a b.
Proof.
  induction a as [|x a IH]; intros [|y b]; cbn [text_lt].
  - split; [discriminate|]. intros [(x & c & H)|(p & x & y & a' & b' & H & _)]; [discriminate|destruct p; discriminate].
  - split; auto. intros _. left. now exists y, b.
  - split; [discriminate|]. intros [(z & c & H)|(p & u & v & a' & b' & _ & H & _)]; [discriminate|destruct p; discriminate].
  - destruct (N.eqb_spec x y) as [<-|N].
    + rewrite IH. split.
      * intros [(z & c & ->)|(p & u & v & a' & b' & -> & -> & L)]; [left; now exists z, c|right; now exists (x :: p), u, v, a', b'].
      * intros [(z & c & H)|(p & u & v & a' & b' & H & H' & L)].
        { cbn in H. injection H as ->. left. now exists z, c. }
        destruct p as [|w p]; cbn in H, H'; injection H as E1 E2; injection H' as E3 E4; [subst; lia|].
        right. now exists p, u, v, a', b'.
    + rewrite N.ltb_lt. split.
      * intros L. right. now exists [], x, y, a, b.
      * intros [(z & c & H)|(p & u & v & a' & b' & H & H' & L)].
        { cbn in H. injection H as H1 _. congruence. }
        destruct p as [|w p]; cbn in H, H'; injection H as E1 E2; injection H' as E3 E4; [now subst|congruence].
Qed.
Lemma text_lt_irrefl a : text_lt a a = false.
Proof. induction a as [|x a IH]; cbn [text_lt]; auto. now rewrite N.eqb_refl. Qed.
Lemma text_lt_tri a : forall b, text_eq a b = false -> text_lt b a = negb (text_lt a b).
Proof.
  induction a as [|x a IH]; intros [|y b]; cbn [text_lt text_eq]; try discriminate; auto.
  rewrite (N.eqb_sym y x). destruct (N.eqb_spec x y) as [<-|N]; cbn [andb]; [apply IH|]. intros _.
  destruct (N.ltb_spec y x), (N.ltb_spec x y); cbn [negb]; auto; lia.
Qed.
Lemma text_lt_trans a : forall b c, text_lt a b = true -> text_lt b c = true -> text_lt a c = true.
Proof.
  induction a as [|x a IH]; intros [|y b] [|z c]; cbn [text_lt]; try discriminate; auto.
  destruct (N.eqb_spec x y) as [<-|N1]; destruct (N.eqb_spec x z) as [<-|N2].
  - apply IH.
  - auto.
  - rewrite (N.eqb_sym y x). destruct (N.eqb_spec x y); [contradiction|]. rewrite !N.ltb_lt. lia.
  - destruct (N.eqb_spec y z) as [<-|N3]; auto. rewrite !N.ltb_lt. lia.
Qed.
Lemma text_eq_sym a b : text_eq b a = text_eq a b.
Proof. apply eq_true_iff_eq. rewrite !text_eq_iff. split; auto. Qed.

(** [<] of labels is the order by document and id *)
Theorem C90_lt l m : label_lt l m = true <-> before l m.
Proof.
  unfold label_lt, pair_cmp, pair_of, before; cbn [fst snd]. rewrite <- !text_lt_iff, <- text_eq_iff.
  destruct (text_eq (p_doc l) (p_doc m)) eqn:E.
  - apply text_eq_iff in E. rewrite E, text_lt_irrefl. destruct (text_eq (p_id l) (p_id m)) eqn:F.
    + apply text_eq_iff in F. rewrite F, text_lt_irrefl. intuition discriminate.
    + intuition discriminate.
  - intuition discriminate.
Qed.
(** [==] of labels is that document and id are the same *)
Theorem C90_eq l m : label_eq l m = true <-> same l m.
Proof. unfold label_eq, same. now rewrite andb_true_iff, !text_eq_iff. Qed.
(** the other comparisons agree with these two *)
Theorem C90_agree l m :
  (label_gt l m = true <-> before m l) /\ (label_le l m = true <-> before l m \/ same l m) /\
  (label_ge l m = true <-> before m l \/ same l m) /\ (label_ne l m = true <-> ~ same l m).
Proof.
  rewrite <- !C90_lt, <- !C90_eq. unfold label_gt, label_le, label_ge, label_lt, label_eq, label_ne, pair_cmp, pair_of; cbn [fst snd].
  rewrite (text_eq_sym (p_doc l)), (text_eq_sym (p_id l)).
  destruct (text_eq (p_doc l) (p_doc m)), (text_eq (p_id l) (p_id m)); cbn [andb negb]; intuition (try discriminate).
Qed.
(** exactly one of before, same and after holds *)
Theorem C90_total l m :
  (before l m \/ same l m \/ before m l) /\ ~ (before l m /\ same l m) /\ ~ (before l m /\ before m l).
Proof.
  rewrite <- !C90_lt, <- !C90_eq. unfold label_lt, label_eq, pair_cmp, pair_of; cbn [fst snd].
  rewrite (text_eq_sym (p_doc l)), (text_eq_sym (p_id l)).
  destruct (text_eq (p_doc l) (p_doc m)) eqn:E; cbn [andb].
  - destruct (text_eq (p_id l) (p_id m)) eqn:F; [intuition discriminate|].
    rewrite (text_lt_tri _ _ F). destruct (text_lt (p_id l) (p_id m)); cbn [negb]; intuition discriminate.
  - rewrite (text_lt_tri _ _ E). destruct (text_lt (p_doc l) (p_doc m)); cbn [negb]; intuition discriminate.
Qed.
Theorem C90_trans l m n : before l m -> before m n -> before l n.
Proof.
  unfold before. rewrite <- !text_lt_iff.
  intros [A|[A A']] [B|[B B']].
  - left. eapply text_lt_trans; eauto.
  - left. now rewrite <- B.
  - left. now rewrite A.
  - right. split; [congruence|]. eapply text_lt_trans; eauto.
Qed.
Example C90_ex : let a := PLabel (lit "ContentLabel") (lit "a.dm") (lit "x") None in
  let b := PLabel (lit "ContentLabel") (lit "a.dm") (lit "xy") None in
  let c := PLabel (lit "ContentLabel") (lit "b.dm") (lit "a") None in
  before a b /\ before b c /\ sorted_labels [c; b; a] = [a; b; c].
Proof. cbn zeta. rewrite <- !C90_lt. now vm_compute. Qed.

(** sorted labels: the labels, each at most as far as the next *)
Theorem C90_sorted ls :
  Permutation (sorted_labels ls) ls /\ StronglySorted (fun a b => before a b \/ same a b) (sorted_labels ls).
Proof.
  split; [apply isort_perm|]. unfold sorted_labels.
  assert (K : forall a b, negb (label_lt b a) = true <-> before a b \/ same a b).
  { intros a b. rewrite negb_true_iff, <- not_true_iff_false, C90_lt.
    destruct (C90_total a b) as ([H|[H|H]] & H1 & H2); [intuition|..].
    - split; auto. intros _ H3. destruct (C90_total b a) as (_ & G & _). apply G. split; auto. destruct H; split; auto.
    - split; [contradiction|]. intros [G|G] _; [now apply H2|]. destruct (C90_total b a) as (_ & G' & _). apply G'. split; auto. destruct G; split; auto. }
  assert (T : forall a b, negb (label_lt b a) = true \/ negb (label_lt a b) = true).
  { intros a b. rewrite !K. destruct (C90_total a b) as ([H|[H|H]] & _); auto. }
  assert (R : forall a b c, negb (label_lt b a) = true -> negb (label_lt c b) = true -> negb (label_lt c a) = true).
  { intros a b c. rewrite !K. intros [A|[A A']] [B|[B B']].
    - left. eapply C90_trans; eauto.
    - left. unfold before in *. now rewrite <- B, <- B'.
    - left. unfold before in *. now rewrite A, A'.
    - right. split; congruence. }
  pose proof (isort_sorted (fun a b => negb (label_lt b a)) T R ls) as S.
  induction S as [|a l S IH F]; constructor; auto.
  eapply Forall_impl; [|exact F]. intros b. apply K.
Qed.
(** the documents and ids of sorted labels do not depend on the order they had before *)
Theorem C90_sorted_unique ls ls' :
  Permutation ls ls' -> map pair_of (sorted_labels ls) = map pair_of (sorted_labels ls').
Proof.
  intros P. destruct (C90_sorted ls) as [P1 S1]. destruct (C90_sorted ls') as [P2 S2].
  assert (Q : Permutation (map pair_of (sorted_labels ls)) (map pair_of (sorted_labels ls'))).
  { apply Permutation_map. now rewrite P1, P2. }
  revert Q S1 S2. clear. generalize (sorted_labels ls'). generalize (sorted_labels ls). clear.
  induction l as [|a l IH]; intros [|b m] Q S1 S2; auto.
  - apply Permutation_nil in Q. discriminate.
  - symmetry in Q. apply Permutation_nil in Q. discriminate.
  - inversion S1 as [|? ? S1' F1]; subst. inversion S2 as [|? ? S2' F2]; subst. cbn [map] in *.
    assert (E : pair_of a = pair_of b).
    { assert (A : In (pair_of a) (pair_of b :: map pair_of m)) by (eapply Permutation_in; [exact Q|now left]).
      assert (B : In (pair_of b) (pair_of a :: map pair_of l)) by (eapply Permutation_in; [symmetry; exact Q|now left]).
      destruct A as [A|A]; auto. destruct B as [B|B]; auto.
      apply in_map_iff in A. destruct A as (a' & A & Ia). apply in_map_iff in B. destruct B as (b' & B & Ib).
      rewrite Forall_forall in F1, F2. specialize (F1 _ Ib). specialize (F2 _ Ia).
      unfold pair_of in A, B. injection A as A1 A2. injection B as B1 B2. unfold before, same in F1, F2.
      rewrite B1, B2 in F1. rewrite A1, A2 in F2.
      destruct F1 as [F1|[F1 F1']]; [|unfold pair_of; congruence]. destruct F2 as [F2|[F2 F2']]; [|unfold pair_of; congruence].
      exfalso. destruct (C90_total a b) as (_ & _ & G). apply G. now split. }
    rewrite E in Q |- *. f_equal. apply IH; auto. now apply Permutation_cons_inv in Q.
Qed.

(** equal labels of one class have equal hashes *)
Theorem C90_hash h l m : p_cls l = p_cls m -> label_eq l m = true -> label_hash h l = label_hash h m.
Proof. intros C E. apply C90_eq in E. destruct E as [D I]. unfold label_hash. now rewrite C, D, I. Qed.
(** finding: labels of two classes may be equal and yet have different hashes, as only the hash looks at the class *)
Theorem C90_hash_refuted : ~ forall h l m, label_eq l m = true -> label_hash h l = label_hash h m.
Proof.
  intros H. specialize (H (fun t => N.of_nat (length (fst (fst t)))) (PLabel (lit "Label") (lit "a") (lit "b") None) (PLabel (lit "ContentLabel") (lit "a") (lit "b") None) eq_refl).
  vm_compute in H. discriminate.
Qed.
(** the number of a label is the last of its order, and there is none without an order *)
Theorem C90_number l : (forall o n, p_order l = Some (o ++ [n]) -> number l = Some n) /\ (p_order l = Some [] \/ p_order l = None <-> number l = None).
Proof.
  unfold number. split.
  - intros o n ->. destruct (o ++ [n]) as [|x t] eqn:E; [destruct o; discriminate|]. rewrite <- E. now rewrite last_last.
  - destruct (p_order l) as [[|x t]|]; intuition discriminate.
Qed.
Example C90_number_ex : number (PLabel (lit "Label") (lit "a") (lit "b") (Some [3; 2]%N)) = Some 2%N.
Proof. reflexivity. Qed.

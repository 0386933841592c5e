(** Facts about the stable sort. *)
From Coq Require Import List Bool Arith Lia Permutation Sorted NArith.
From Verif.Base Require Import Str StrFacts Sort.
Import ListNotations.

Section SF.
Context {A : Type} (leb : A -> A -> bool).
Lemma insert_perm x l : Permutation (insert leb x l) (x :: l).
Proof.
  induction l as [|y l IH]; simpl; [apply Permutation_refl|].
  destruct (leb x y); [apply Permutation_refl|].
  eapply Permutation_trans; [apply perm_skip, IH|apply perm_swap].
Qed.
Lemma isort_perm l : Permutation (isort leb l) l.
Proof.
  induction l as [|x l IH]; simpl; [constructor|].
  eapply Permutation_trans; [apply insert_perm|apply perm_skip, IH].
Qed.
Hypothesis total : forall x y, leb x y = true \/ leb y x = true.
Hypothesis trans : forall x y z, leb x y = true -> leb y z = true -> leb x z = true.
Definition le x y := leb x y = true.
Lemma insert_sorted x l : StronglySorted le l -> StronglySorted le (insert leb x l).
Proof using total trans.
  induction l as [|y l IH]; simpl; intros Hs.
  - repeat constructor.
  - inversion Hs as [|? ? Hs' Hall]; subst. destruct (leb x y) eqn:E.
    + constructor; [exact Hs|]. constructor; [exact E|].
      eapply Forall_impl; [|exact Hall]. intros z Hz. eapply trans; eauto.
    + constructor; [auto|]. rewrite Forall_forall in *. intros z Hz.
      apply (Permutation_in _ (insert_perm x l)) in Hz. destruct Hz as [<-|Hz]; [|auto].
      destruct (total x y); [congruence|assumption].
Qed.
Lemma isort_sorted l : StronglySorted le (isort leb l).
Proof using total trans.
  induction l as [|x l IH]; simpl; [constructor|]. apply insert_sorted. exact IH.
Qed.
Lemma isort_sorted_id l : StronglySorted le l -> isort leb l = l.
Proof.
  induction l as [|x l IH]; simpl; intros Hs; [reflexivity|].
  inversion Hs as [|? ? Hs' Hall]; subst. rewrite IH by exact Hs'.
  destruct l as [|y l]; [reflexivity|]. simpl.
  inversion Hall as [|? ? Hxy _]; subst. unfold le in Hxy. rewrite Hxy. reflexivity.
Qed.
End SF.

Section ByKey.
Context {A : Type} (key : A -> nat).
Lemma sort_by_perm l : Permutation (sort_by key l) l.
Proof. apply isort_perm. Qed.
Lemma sort_by_sorted l : StronglySorted (fun x y => key x <= key y) (sort_by key l).
Proof.
  assert (H := isort_sorted (fun x y => Nat.leb (key x) (key y))).
  unfold sort_by. specialize (H).
  assert (H1 : StronglySorted (le (fun x y => Nat.leb (key x) (key y)))
     (isort (fun x y => Nat.leb (key x) (key y)) l)).
  { apply H.
    - intros x y. rewrite !Nat.leb_le. lia.
    - intros x y z. rewrite !Nat.leb_le. lia. }
  clear H. induction H1; constructor; auto.
  eapply Forall_impl; [|exact H]. intros b Hb. apply Nat.leb_le. exact Hb.
Qed.
(** stability: elements with equal keys keep their relative order *)
Lemma sort_by_stable k l :
  filter (fun x => Nat.eqb (key x) k) (sort_by key l) = filter (fun x => Nat.eqb (key x) k) l.
Proof.
  unfold sort_by. induction l as [|x l IH]; [reflexivity|]. simpl.
  rewrite <- IH. clear IH. set (m := isort _ l). clearbody m.
  induction m as [|y m IH]; simpl; [reflexivity|].
  destruct (Nat.leb (key x) (key y)) eqn:E; [reflexivity|].
  simpl. rewrite IH. apply Nat.leb_gt in E.
  destruct (Nat.eqb_spec (key y) k), (Nat.eqb_spec (key x) k); try reflexivity. lia.
Qed.
End ByKey.

(** The string order is total, transitive and antisymmetric. *)
Lemma str_leb_total a b : str_leb a b = true \/ str_leb b a = true.
Proof.
  revert b; induction a as [|x a IH]; intros [|y b]; simpl; auto.
  destruct (N.ltb_spec x y), (N.ltb_spec y x), (N.eqb_spec x y), (N.eqb_spec y x);
    auto; try lia; subst; auto; try (exfalso; lia).
Qed.
Lemma str_leb_antisym a b : str_leb a b = true -> str_leb b a = true -> a = b.
Proof.
  revert b; induction a as [|x a IH]; intros [|y b]; simpl; try discriminate; auto.
  destruct (N.ltb_spec x y), (N.ltb_spec y x), (N.eqb_spec x y), (N.eqb_spec y x);
    intros; try discriminate; try lia; subst; f_equal; auto.
Qed.
Lemma str_leb_trans a b c : str_leb a b = true -> str_leb b c = true -> str_leb a c = true.
Proof.
  revert b c; induction a as [|x a IH]; intros [|y b] [|z c]; simpl; try discriminate; auto.
  destruct (N.ltb_spec x y), (N.ltb_spec y z), (N.ltb_spec x z),
    (N.eqb_spec x y), (N.eqb_spec y z), (N.eqb_spec x z);
    intros; try discriminate; try (exfalso; lia); auto; subst; eauto.
Qed.
Lemma str_leb_refl a : str_leb a a = true.
Proof. induction a; simpl; [reflexivity|]. rewrite N.ltb_irrefl, N.eqb_refl. exact IHa. Qed.

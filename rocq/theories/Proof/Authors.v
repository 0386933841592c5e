From Coq Require Import List Bool Arith NArith Lia.
From Verif.Base Require Import Str StrFacts PyText Result ListFacts.
From Verif.Model Require Import StringUtils Authors.
From Verif.Spec Require Import Authors.
From Verif.Proof Require Import Scanner.
Import ListNotations.

Lemma strings_of_map l : strings_of (map IStr l) = Ok l.
Proof. induction l as [|a l IH]; [reflexivity|]. cbn [map strings_of]. rewrite IH. reflexivity. Qed.

(** Both ways to write the joined text *)
Fixpoint reads (l : list str) : str :=
  match l with
  | [] => []
  | [a] => a
  | [a; b] => a ++ lit " and " ++ b
  | a :: r => a ++ lit ", " ++ reads r
  end.
Lemma reads_iff l s : reads_as l s <-> s = reads l.
Proof.
  split.
  - intros H. induction H as [|a|a b|a l s Hl _ IH]; [reflexivity|reflexivity|reflexivity|].
    rewrite IH. destruct l as [|b [|c l]]; [cbn in Hl; lia|cbn in Hl; lia|reflexivity].
  - intros ->. induction l as [|a l IH]; [constructor|]. destruct l as [|b [|c l]]; [constructor|constructor|].
    apply ra_more; [cbn; lia|exact IH].
Qed.
Lemma reads_join l a b : reads (l ++ [a; b]) = join (lit ", ") (l ++ [a ++ lit " and " ++ b]).
Proof.
  induction l as [|c l IH]; [reflexivity|]. cbn [app]. rewrite join_cons by (destruct l; discriminate). rewrite <- IH.
  destruct l as [|d [|e l]]; reflexivity.
Qed.
Lemma split_last_two (l : list str) : 2 <= length l -> exists r a b, l = r ++ [a; b].
Proof.
  intros H. destruct (exists_last (l := l)) as (l' & b & ->); [destruct l; [cbn in H; lia|discriminate]|].
  rewrite app_length in H. cbn in H. destruct (exists_last (l := l')) as (r & a & ->); [destruct l'; [cbn in H; lia|discriminate]|].
  exists r, a, b. rewrite <- app_assoc. reflexivity.
Qed.
Lemma join_snoc sep (l : list str) x : l <> [] -> join sep (l ++ [x]) = join sep l ++ sep ++ x.
Proof.
  induction l as [|a l IH]; intros H; [contradiction|]. destruct l as [|b l].
  - reflexivity.
  - cbn [app]. rewrite join_cons by discriminate. cbn [app] in IH. rewrite IH by discriminate. rewrite (join_cons sep a (b :: l)) by discriminate.
    rewrite <- !app_assoc. reflexivity.
Qed.
Lemma author_string_items l : author_string (VItems (map IStr l)) = Ok (IStr (reads l)).
Proof.
  destruct l as [|a [|b l]]; [reflexivity|reflexivity|]. destruct (split_last_two (a :: b :: l)) as (r & y & z & E); [cbn; lia|].
  cbn [author_string map]. change (IStr a :: IStr b :: map IStr l) with (map IStr (a :: b :: l)). rewrite E. rewrite map_length, app_length.
  change (length [y; z]) with 2. replace (length r + 2 - 2) with (length (map IStr r)) by (rewrite map_length; lia). rewrite map_app, firstn_app, skipn_app, Nat.sub_diag, firstn_all, skipn_all.
  cbn [firstn skipn app]. rewrite app_nil_r. unfold join_items. rewrite strings_of_map. change (map IStr [y; z]) with [IStr y; IStr z].
  cbn [strings_of bind]. change (join (lit " and ") [y; z]) with (y ++ lit " and " ++ z). rewrite reads_join.
  destruct r as [|c r]; [reflexivity|]. replace (Nat.eqb (length (c :: r) + 2) 2) with false by (symmetry; apply Nat.eqb_neq; cbn; lia).
  do 2 f_equal. rewrite join_snoc by discriminate. reflexivity.
Qed.
Lemma nicejoin_reads l : nicejoin (lit ", ") (lit " and ") l = reads l.
Proof.
  destruct l as [|a [|b l]]; [reflexivity|reflexivity|]. destruct (split_last_two (a :: b :: l)) as (r & y & z & E); [cbn; lia|].
  unfold nicejoin. change (Nat.ltb 1 (length (a :: b :: l))) with true. cbn iota. rewrite E. rewrite reads_join.
  replace (r ++ [y; z]) with ((r ++ [y]) ++ [z]) by (rewrite <- app_assoc; reflexivity).
  rewrite last_last. unfold drop_last. rewrite app_length. change (length [z]) with 1. replace (length (r ++ [y]) + 1 - 1) with (length (r ++ [y])) by lia.
  rewrite firstn_app, Nat.sub_diag, firstn_all. cbn [firstn]. rewrite app_nil_r.
  destruct r as [|c r]; [reflexivity|]. rewrite !join_snoc by discriminate. rewrite <- !app_assoc. reflexivity.
Qed.

Lemma first_c (c : char) a b x y : ~ In c a -> ~ In c b -> a ++ c :: x = b ++ c :: y -> a = b /\ x = y.
Proof.
  intros Ha Hb E. assert (a = b) as ->.
  { pose proof (f_equal (split_c c) E) as F. rewrite (split_c_app c a x Ha), (split_c_app c b y Hb) in F. injection F as F _. exact F. }
  apply app_inv_head in E. injection E as ->. auto.
Qed.
Lemma contains_false (l p : str) : contains l p = false -> forall a b, l <> a ++ p ++ b.
Proof. intros H a b ->. assert (contains (a ++ p ++ b) p = true) by (apply contains_iff; exists a, b; reflexivity). congruence. Qed.
Lemma no_and_longer a b a' b' z : a_name a' -> a' = a ++ z -> z <> [] -> lit " and " ++ b = z ++ lit " and " ++ b' -> False.
Proof.
  intros (_ & _ & _ & _ & _ & Hn) Ea Hz E. pose proof (contains_false _ _ Hn) as Hn'. clear Hn. rename Hn' into Hn.
  destruct z as [|z1 [|z2 [|z3 [|z4 [|z5 z]]]]]; [contradiction| | | | |]; cbn in E; try discriminate E.
  - injection E as <- <- <- <- E. apply (Hn (32%N :: a) []). rewrite Ea. cbn. rewrite <- !app_assoc. reflexivity.
  - injection E as <- <- <- <- <- E. apply (Hn (32%N :: a) (z ++ lit " ")). rewrite Ea. cbn. rewrite <- !app_assoc. reflexivity.
Qed.
Lemma and_split a b a' b' : a_name a -> a_name a' -> a ++ lit " and " ++ b = a' ++ lit " and " ++ b' -> a = a' /\ b = b'.
Proof.
  intros Ha Ha' E. assert (a = a') as ->; [|apply app_inv_head in E; apply app_inv_head in E; auto].
  destruct (le_ge_dec (length a) (length a')) as [Hl|Hl].
  - destruct (prefix_split _ _ _ _ E Hl) as (z & Ez & Er). destruct z as [|c z]; [rewrite app_nil_r in Ez; auto|]. exfalso.
    apply (no_and_longer a b a' b' (c :: z) Ha' Ez); [discriminate|exact Er].
  - symmetry in E. destruct (prefix_split _ _ _ _ E Hl) as (z & Ez & Er). destruct z as [|c z]; [rewrite app_nil_r in Ez; auto|]. exfalso.
    apply (no_and_longer a' b' a b (c :: z) Ha Ez); [discriminate|exact Er].
Qed.
Lemma name_no_and a b c : a_name c -> c <> a ++ lit " and " ++ b.
Proof.
  intros (_ & _ & _ & _ & _ & Hn) ->. apply (contains_false _ _ Hn (lit " " ++ a) (b ++ lit " ")). rewrite <- !app_assoc. reflexivity.
Qed.
Lemma comma_not_in_two a b : a_name a -> a_name b -> ~ In 44%N (a ++ lit " and " ++ b).
Proof.
  intros (_ & Ha & _) (_ & Hb & _) H. apply in_app_or in H as [H|H]; [exact (Ha H)|]. apply in_app_or in H as [H|H]; [|exact (Hb H)].
  cbn in H. intuition discriminate.
Qed.
Lemma reads_inj l : Forall a_name l -> forall l', Forall a_name l' -> reads l = reads l' -> l = l'.
Proof.
  assert (Hne : forall a l, a_name a -> reads (a :: l) <> []).
  { intros a r (Ha & _) E. destruct a; [contradiction|]. destruct r as [|b [|c r]]; discriminate E. }
  assert (Hc : forall a b c r, In 44%N (reads (a :: b :: c :: r))).
  { intros a b c r. change (reads (a :: b :: c :: r)) with (a ++ lit ", " ++ reads (b :: c :: r)). apply in_or_app. right. left. reflexivity. }
  induction l as [|a l IH]; intros Hl l' Hl' E.
  - destruct l' as [|b l']; [reflexivity|]. exfalso. apply (Hne b l'); [inversion Hl'; assumption|symmetry; exact E].
  - inversion Hl as [|a0 l0 Ha Hr]; subst. destruct l' as [|a' l']; [exfalso; exact (Hne a l Ha E)|]. inversion Hl' as [|a0 l0 Ha' Hr']; subst.
    destruct l as [|b [|c l]], l' as [|b' [|c' l']].
    + cbn in E. congruence.
    + exfalso. exact (name_no_and a' b' a Ha E).
    + exfalso. pose proof (Hc a' b' c' l') as Hi. rewrite <- E in Hi. destruct Ha as (_ & Hx & _). exact (Hx Hi).
    + exfalso. exact (name_no_and a b a' Ha' (eq_sym E)).
    + inversion Hr as [|x1 x2 Hb _]; inversion Hr' as [|x3 x4 Hb' _]; subst. destruct (and_split a b a' b' Ha Ha' E) as [-> ->]. reflexivity.
    + exfalso. inversion Hr as [|x1 x2 Hb _]; subst. pose proof (Hc a' b' c' l') as Hi. rewrite <- E in Hi. exact (comma_not_in_two a b Ha Hb Hi).
    + exfalso. pose proof (Hc a b c l) as Hi. rewrite E in Hi. destruct Ha' as (_ & Hx & _). exact (Hx Hi).
    + exfalso. inversion Hr' as [|x1 x2 Hb' _]; subst. pose proof (Hc a b c l) as Hi. rewrite E in Hi. exact (comma_not_in_two a' b' Ha' Hb' Hi).
    + change (a ++ 44%N :: 32%N :: reads (b :: c :: l) = a' ++ 44%N :: 32%N :: reads (b' :: c' :: l')) in E.
      destruct (first_c 44%N a a' _ _ (proj1 (proj2 Ha)) (proj1 (proj2 Ha')) E) as [-> E'].
      injection E' as E'. rewrite (IH Hr (b' :: c' :: l') Hr' E'). reflexivity.
Qed.

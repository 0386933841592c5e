From Coq Require Import List Bool Arith Lia.
From Verif.Model Require Import XhtmlList.
From Verif.Spec Require Import ListTag.
Import ListNotations.

Section XhtmlList.
Context {A : Type}.
Implicit Types l : list (nat * A).

Lemma groups_first lv l : forall x, exists sub rest, l = sub ++ rest /\ ~ In lv (map fst sub) /\ (forall y r, rest = y :: r -> fst y = lv) /\
  groups lv (x :: l) = (x :: sub) :: groups lv rest.
Proof.
  induction l as [|y l IH]; intros x.
  - exists [], []. split; auto. split; auto. split; [discriminate|reflexivity].
  - destruct (IH y) as (sub & rest & -> & Hs & Hr & G).
    assert (G' : groups lv (x :: y :: sub ++ rest) = if Nat.eqb (fst y) lv then [x] :: (y :: sub) :: groups lv rest else (x :: y :: sub) :: groups lv rest).
    { remember (y :: sub ++ rest) as t eqn:Et. cbn [groups]. rewrite G. reflexivity. }
    rewrite G'. destruct (Nat.eqb_spec (fst y) lv) as [E|E].
    + exists [], (y :: sub ++ rest). split; auto. split; auto. split; [intros z r X; injection X as <- _; auto|]. now rewrite G.
    + exists (y :: sub), rest. split; auto. split; [intros [|]; auto|]. auto.
Qed.

Definition reached (open ls : list nat) : list nat := fold_left (fun o v => upto v o) ls open.
Lemma depths_app a : forall open b, depths open (a ++ b) = depths open a ++ depths (reached open a) b.
Proof. induction a as [|v a IH]; intros open b; [reflexivity|]. cbn [app depths]. rewrite IH. reflexivity. Qed.
Lemma upto_nonnil v open : upto v open <> [].
Proof. destruct open as [|x open]; cbn [upto]; [discriminate|]. destruct (Nat.eqb x v); discriminate. Qed.
Lemma depths_under lv ls : ~ In lv ls -> forall open, depths (lv :: open) ls = map S (depths open ls) /\ reached (lv :: open) ls = lv :: reached open ls.
Proof.
  induction ls as [|v ls IH]; intros N open; [split; reflexivity|]. cbn [depths map reached fold_left upto].
  assert (E : Nat.eqb lv v = false) by (apply Nat.eqb_neq; intros ->; apply N; now left). rewrite E.
  destruct (IH (fun H => N (or_intror H)) (upto v open)) as [I1 I2]. split; [|exact I2]. rewrite I1. f_equal.
  pose proof (upto_nonnil v open) as U. destruct (upto v open); [congruence|]. cbn. lia.
Qed.
Lemma depths_back lv open ls : depths (lv :: open) (lv :: ls) = depths [] (lv :: ls).
Proof. cbn [depths upto]. now rewrite Nat.eqb_refl. Qed.

Lemma combine_app {X Y} (a b : list X) (c d : list Y) : length a = length c -> combine (a ++ b) (c ++ d) = combine a c ++ combine b d.
Proof. revert c. induction a as [|x a IH]; intros [|y c] H; try discriminate; [reflexivity|]. cbn [app combine]. f_equal. apply IH. cbn in H. lia. Qed.
Lemma depths_length ls : forall open, length (depths open ls) = length ls.
Proof. induction ls as [|v ls IH]; intros open; cbn [depths length]; auto. Qed.

Definition at_depth d l : list (nat * A) := combine (map (Nat.add d) (depths [] (map fst l))) (map snd l).
Lemma xlist_placed n : forall l d, length l <= n -> flat_map (placed d) (xlist n l) = at_depth d l.
Proof.
  induction n as [|n IH]; intros l d Hn; [destruct l; [reflexivity|cbn in Hn; lia]|].
  destruct l as [|x l]; [reflexivity|]. cbn [xlist].
  set (F := fun g : list (nat * A) => _). set (lv := fst x) in *.
  assert (X : forall k m, length m <= k -> length m <= S n -> (forall y r, m = y :: r -> fst y = lv) -> flat_map (placed d) (flat_map F (groups lv m)) = at_depth d m).
  { clear Hn. induction k as [|k IHk]; intros [|y m] Hk Hm Hs; try reflexivity; [cbn in Hk; lia|].
    destruct (groups_first lv m y) as (sub & rest & -> & Ns & Hr & ->). cbn [flat_map]. rewrite flat_map_app.
    cbn [length] in Hk, Hm. rewrite app_length in Hk, Hm.
    assert (E1 : flat_map (placed d) (F (y :: sub)) = (d, snd y) :: at_depth (S d) sub).
    { unfold F. destruct sub as [|z sub]; [reflexivity|]. cbn [flat_map placed app]. f_equal. rewrite app_nil_r. apply IH. lia. }
    rewrite E1, IHk by (auto; lia). assert (Ey : fst y = lv) by eauto. unfold at_depth. cbn [map app]. rewrite Ey. cbn [depths upto length].
    rewrite !map_app, depths_app. destruct (depths_under lv (map fst sub) Ns []) as [D1 D2]. rewrite D1, D2.
    cbn [map combine]. replace (d + (1 - 1)) with d by lia. f_equal. rewrite map_app, combine_app by (rewrite !map_length, depths_length, map_length; reflexivity).
    f_equal; [f_equal; rewrite map_map; apply map_ext; intros; lia|]. destruct rest as [|z rest]; [reflexivity|]. cbn [map]. rewrite (Hr z rest eq_refl). now rewrite depths_back. }
  apply (X (length (x :: l))); auto. intros y r E. injection E as <- _. reflexivity.
Qed.
Lemma xhtml_list_layout l : layout_of (xhtml_list l) = combine (depths [] (map fst l)) (map snd l).
Proof. unfold layout_of, xhtml_list. rewrite xlist_placed by auto. unfold at_depth. f_equal. rewrite <- (map_id (depths [] (map fst l))) at 2. apply map_ext. reflexivity. Qed.
End XhtmlList.

Lemma upto_seq j : forall lv k, j <= k -> upto (lv + j) (seq lv k) = seq lv (S j).
Proof.
  induction j as [|j IH]; intros lv k H.
  - rewrite Nat.add_0_r. destruct k; cbn [seq upto]; [reflexivity|]. now rewrite Nat.eqb_refl.
  - destruct k as [|k]; [lia|]. cbn [seq upto]. destruct (Nat.eqb_spec lv (lv + S j)); [lia|]. rewrite <- Nat.add_succ_comm, IH by lia. reflexivity.
Qed.
Lemma depths_steps lv ls : forall v, lv <= v -> steps lv v ls -> depths (seq lv (S (v - lv))) ls = map (fun x => x - lv) ls.
Proof.
  induction ls as [|x ls IH]; intros v Hv H; [reflexivity|]. destruct H as [Hx Hs]. cbn [depths map].
  assert (E : upto x (seq lv (S (v - lv))) = seq lv (S (x - lv))) by (replace x with (lv + (x - lv)) at 1 by lia; apply upto_seq; lia).
  rewrite E, seq_length. f_equal; [lia|]. apply IH; [lia|auto].
Qed.

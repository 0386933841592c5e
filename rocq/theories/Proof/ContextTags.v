From Coq Require Import List Bool Arith NArith ZArith Lia Permutation.
From Verif.Base Require Import Str StrFacts Dict DictFacts Result.
From Verif.Model Require Import StringUtils StrToDict Context.
From Verif.Spec Require Import Context.
From Verif.Proof Require Import StrToDict Context.
Import ListNotations.

Definition good (h : list cell) (s : nat) : Prop := entries_exist h /\ own_tags h s /\ s < length h.

Lemma app_nth (h : list cell) c a x : nth_error (h ++ [c]) a = Some x -> (a < length h /\ nth_error h a = Some x) \/ (a = length h /\ x = c).
Proof.
  intros H. destruct (lt_dec a (length h)) as [L|L].
  - left. split; auto. now rewrite nth_error_app1 in H.
  - right. rewrite nth_error_app2 in H by lia. destruct (a - length h) eqn:E; [|destruct n; discriminate H].
    cbn in H. split; [lia|congruence].
Qed.
Lemma upd_nth (h : list cell) a c x y : nth_error (upd h a c) x = Some y -> (x = a /\ y = c /\ a < length h) \/ (x <> a /\ nth_error h x = Some y).
Proof.
  intros H. destruct (Nat.eq_dec x a) as [->|N].
  - left. assert (L : a < length h). { rewrite <- (upd_length h a c). eapply nth_lt; eauto. }
    rewrite upd_same in H by auto. split; [auto|]. split; [congruence|auto].
  - right. rewrite upd_other in H by auto. auto.
Qed.

(** A new object *)
Lemma good_alloc h s c : good h s -> (forall d k b, c = CDict d -> lookup k d = Some (VRef b) -> b < length h) -> good (h ++ [c]) s.
Proof.
  intros (E & O & L) Hc. split; [|split].
  - intros a d k b Ha Hk. rewrite app_length. apply app_nth in Ha. destruct Ha as [[_ Ha]|[_ Ha]].
    + specialize (E _ _ _ _ Ha Hk). lia.
    + symmetry in Ha. specialize (Hc _ _ _ Ha Hk). lia.
  - intros d k b cls ctx t Hd Hk Hb. apply app_nth in Hd. destruct Hd as [[_ Hd]|[Hd _]]; [|lia].
    apply app_nth in Hb. destruct Hb as [[_ Hb]|[Hb _]]; [eapply O; eauto|]. specialize (E _ _ _ _ Hd Hk). lia.
  - rewrite app_length. lia.
Qed.
(** A change that is no new entry *)
Lemma good_upd h s a c x : good h s -> nth_error h a = Some x ->
  (forall d, c = CDict d -> forall k b, lookup k d = Some (VRef b) -> exists d0, x = CDict d0 /\ lookup k d0 = Some (VRef b)) ->
  (forall cls ctx t, c = CTag cls ctx t -> x = CTag cls ctx t) -> good (upd h a c) s.
Proof.
  intros (E & O & L) Hx Hd Ht. split; [|split].
  - intros y d k b Hy Hk. rewrite upd_length. apply upd_nth in Hy. destruct Hy as [(-> & Hy & _)|(_ & Hy)].
    + symmetry in Hy. destruct (Hd _ Hy _ _ Hk) as (d0 & -> & Hk0). eapply E; eauto.
    + eapply E; eauto.
  - intros d k b cls ctx t Hs Hk Hb.
    assert (Hb' : nth_error h b = Some (CTag cls ctx t)).
    { apply upd_nth in Hb. destruct Hb as [(-> & Hb & _)|(_ & Hb)]; auto. symmetry in Hb. apply Ht in Hb. congruence. }
    apply upd_nth in Hs. destruct Hs as [(-> & Hs & _)|(_ & Hs)]; [|eapply O; eauto].
    symmetry in Hs. destruct (Hd _ Hs _ _ Hk) as (d0 & -> & Hk0). eapply O; eauto.
  - now rewrite upd_length.
Qed.
(** A new entry *)
Lemma good_set h s a k v h' : good h s -> set_entry h a k v = Ok h' ->
  (forall b, v = VRef b -> b < length h /\ (a = s -> forall cls ctx t, nth_error h b = Some (CTag cls ctx t) -> ctx = s)) -> good h' s.
Proof.
  unfold set_entry, get_dict. intros (E & O & L) H Hv. destruct (nth_error h a) as [[|?|d0|]|] eqn:Ea; try discriminate. cbn in H. apply ok_inj in H. subst h'.
  split; [|split].
  - intros y d k' b Hy Hk. rewrite upd_length. apply upd_nth in Hy. destruct Hy as [(-> & Hy & _)|(_ & Hy)].
    + injection Hy as ->. rewrite lookup_set in Hk. destruct (eqb k' k); [injection Hk as ->; now apply Hv|]. eapply E; eauto.
    + eapply E; eauto.
  - intros d k' b cls ctx t Hs Hk Hb.
    assert (Hb' : nth_error h b = Some (CTag cls ctx t)).
    { apply upd_nth in Hb. destruct Hb as [(-> & Hb & _)|(_ & Hb)]; auto. discriminate. }
    apply upd_nth in Hs. destruct Hs as [(-> & Hs & _)|(_ & Hs)]; [|eapply O; eauto].
    injection Hs as ->. rewrite lookup_set in Hk. destruct (eqb k' k); [|eapply O; eauto].
    injection Hk as ->. destruct (Hv _ eq_refl) as [_ H2]. eapply H2; eauto.
  - now rewrite upd_length.
Qed.
Lemma good_clear h s v : good h s -> good (clear h v) s.
Proof.
  intros G. destruct v as [|a]; cbn; auto. destruct (nth_error h a) as [[|?|?|]|] eqn:E; auto.
  - eapply good_upd; eauto; discriminate.
  - eapply good_upd; eauto; discriminate.
  - eapply good_upd; eauto; [|discriminate]. intros d1 H. injection H as <-. discriminate.
Qed.
Lemma to_dict_exist h s v c : good h s -> to_dict h v = Ok c -> forall k b, lookup k c = Some (VRef b) -> b < length h.
Proof.
  intros (E & _) H k b Hk. destruct v as [x|a]; cbn in H.
  - destruct x; try discriminate. apply ok_inj in H. subst c.
    rewrite (lookup_map_snd (fun y => VS (SStr y))) in Hk. destruct (lookup k _); discriminate.
  - destruct (nth_error h a) as [[[|]|[|]|d|]|] eqn:Ea; try discriminate; apply ok_inj in H; subst c; try discriminate. eapply E; eauto.
Qed.

Section Update.
Variables (to_int : scalar -> result Z) (to_float : scalar -> result N) (lower : str -> str).
Lemma good_key rec rp ow self ch h k h' s : good h s ->
  (forall h a b h', good h s -> rec h a b = Ok h' -> good h' s) ->
  update_key to_int to_float lower rec rp ow self ch h k = Ok h' -> good h' s.
Proof.
  intros G R H. unfold update_key, get_dict in H.
  destruct (nth_error h ch) as [[|?|c|]|] eqn:Ec; try discriminate H. cbn [bind] in H.
  destruct (lookup k c) as [v|] eqn:Ek; [|apply ok_inj in H; now subst].
  destruct (nth_error h self) as [[|?|d|]|] eqn:Es; try discriminate H. cbn [bind] in H.
  destruct (lookup k d) as [o|] eqn:Eo.
  2:{ destruct (copy_val h self v) as [v' h1] eqn:Ev. unfold copy_val in Ev.
      destruct v as [x|a]; [injection Ev as <- <-; eapply good_set; eauto; discriminate|].
      assert (La : a < length h) by (destruct G as (E & _); exact (E _ _ _ _ Ec Ek)).
      assert (G1 : forall c0, nth_error h a = Some c0 -> good (h ++ [c0]) s).
      { intros c0 Hc. apply good_alloc; auto. intros d0 k0 b0 -> Hk. destruct G as (E & _). eapply E; eauto. }
      assert (G2 : forall cls t, good (h ++ [CTag cls self t]) s) by (intros; apply good_alloc; auto; discriminate).
      destruct (nth_error h a) as [c0|] eqn:Ea; [|apply nth_error_None in Ea; lia]. specialize (G1 _ eq_refl).
      assert (N : forall c1, nth_error (h ++ [c1]) (length h) = Some c1) by apply alloc_new.
      assert (X : exists c1, v' = VRef (length h) /\ h1 = h ++ [c1] /\ good (h ++ [c1]) s /\ forall cls ctx t, c1 = CTag cls ctx t -> ctx = self).
      { destruct c0; cbn in Ev; injection Ev as <- <-; eexists; (split; [reflexivity|]); (split; [reflexivity|]); (split; [auto|]); intros cls0 ctx0 t0 Ht; try discriminate Ht. congruence. }
      destruct X as (c1 & -> & -> & G3 & HT). eapply good_set; [exact G3|exact H|]. intros b Hb. injection Hb as <-.
      split; [rewrite app_length; cbn; lia|]. intros -> cls ctx t. rewrite N. intros Ht. injection Ht as Ht. eauto. }
  destruct ow; cbn [negb] in H; [|apply ok_inj in H; now subst].
  set (h1 := if mem k rp then clear h o else h) in *.
  assert (G1 : good h1 s) by (unfold h1; destruct (mem k rp); [now apply good_clear|auto]).
  destruct o as [x|a].
  - destruct (convert to_int to_float lower x v) as [v'|] eqn:Ev; [|discriminate]. cbn [bind] in H.
    eapply good_set; eauto. intros b ->. exfalso. unfold convert in Ev.
    destruct x; destruct v as [y|y]; try discriminate; try (destruct (same_type _ y); discriminate).
    + destruct (to_int y) as [|[]]; discriminate.
    + destruct y; discriminate.
    + destruct (to_float y) as [|[]]; discriminate.
  - destruct (nth_error h1 a) as [[l|l|d1|cls ctx t]|] eqn:Ea; try discriminate H.
    + destruct (to_list h1 v) as [items|]; [|discriminate]. cbn [bind] in H. apply ok_inj in H. subst h'. eapply good_upd; eauto; discriminate.
    + destruct (to_list h1 v) as [items|]; [|discriminate]. cbn [bind] in H. destruct (forallb hashable items); [|discriminate].
      apply ok_inj in H. subst h'. eapply good_upd; eauto; discriminate.
    + destruct (to_dict h1 v) as [c'|] eqn:Ed; [|discriminate]. cbn [bind alloc] in H.
      eapply R; [|exact H]. apply good_alloc; auto. intros d0 k0 b0 E0 Hk. injection E0 as <-. eapply to_dict_exist; eauto.
    + assert (G2 : forall cls1 t1 h2, set_entry (h1 ++ [CTag cls1 self t1]) self k (VRef (length h1)) = Ok h2 -> good h2 s).
      { intros cls1 t1 h2 H2. eapply good_set; [apply (good_alloc h1 s (CTag cls1 self t1) G1); discriminate|exact H2|].
        intros b Hb. injection Hb as <-. split; [rewrite app_length; cbn; lia|]. intros -> cls0 ctx0 t0. rewrite alloc_new. congruence. }
      destruct v as [y|b].
      * destruct y; try (apply ok_inj in H; now subst). cbn [alloc] in H. eauto.
      * destruct (nth_error h1 b) as [[| | |]|]; try (apply ok_inj in H; now subst). cbn [alloc] in H. eauto.
Qed.
Lemma good_keys rec rp ow self ch ks : forall h h' s, good h s ->
  (forall h a b h', good h s -> rec h a b = Ok h' -> good h' s) ->
  update_keys to_int to_float lower rec rp ow self ch ks h = Ok h' -> good h' s.
Proof.
  induction ks as [|k ks IH]; intros h h' s G R H; cbn [update_keys] in H; [apply ok_inj in H; now subst|].
  destruct (update_key _ _ _ _ _ _ _ _ _ _) as [h1|] eqn:E; [|discriminate]. cbn [bind] in H.
  eapply IH; [|exact R|exact H]. eapply good_key; eauto.
Qed.
Lemma good_update n : forall rp ow self ch ks h h' s, good h s -> match_update to_int to_float lower n rp ow self ch ks h = Ok h' -> good h' s.
Proof.
  induction n as [|n IH]; intros rp ow self ch ks h h' s G H; cbn [match_update] in H; [discriminate|].
  destruct (get_dict h ch) as [c|]; [|discriminate]. cbn [bind] in H.
  refine (good_keys _ _ _ _ _ _ _ _ _ G _ H). intros h0 a b h0' G0 H0. exact (IH _ _ _ _ _ _ _ _ G0 H0).
Qed.
Variable order : list str -> list str.
Lemma good_reset C x h h' s : good h s -> reset to_int to_float lower order C x h = Ok h' -> good h' s.
Proof.
  unfold reset, get_dict. intros G H. destruct (nth_error h (self x)) as [[|?|d|]|] eqn:Es; try discriminate H. cbn [bind] in H.
  set (h1 := upd h (self x) _) in *.
  assert (G1 : good h1 s).
  { eapply good_upd; eauto; [|discriminate]. intros d1 E k b Hk. injection E as <-. exists d. split; auto.
    rewrite (lookup_filter (fun k => mem k (exclude_from_reset C))) in Hk. destruct (mem k _); [auto|discriminate]. }
  destruct (parent x) as [p|].
  - destruct (nth_error h1 p) as [[|?|dp|]|] eqn:Ep; try discriminate H. cbn [bind] in H.
    match goal with H : context [match_update ?a ?b ?c ?n ?r ?o ?y ?z ?k ?h] |- _ =>
      destruct (match_update a b c n r o y z k h) as [h2|] eqn:E2; [|discriminate] end.
    cbn [bind] in H. eapply good_update; [|exact H]. eapply good_update; [exact G1|exact E2].
  - cbn [bind] in H. eapply good_update; eauto.
Qed.
End Update.

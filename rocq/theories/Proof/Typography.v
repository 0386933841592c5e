From Coq Require Import List Bool Arith Lia NArith.
From Verif.Base Require Import Str StrFacts PyText PyTextFacts.
From Verif.Model Require Import Typography.
From Verif.Spec Require Import Typography.
Import ListNotations.

Lemma gap_iff c : gap c = true <-> space_char c.
Proof. unfold gap, space_char. rewrite orb_true_iff, N.eqb_eq. reflexivity. Qed.
Lemma gap_not c : gap c = false <-> ~ space_char c.
Proof. rewrite <- gap_iff. destruct (gap c); intuition congruence. Qed.
Lemma lstrip_gap c r : gap c = true -> lstrip_p gap (c :: r) = lstrip_p gap r.
Proof. intros H. cbn [lstrip_p]. rewrite H. reflexivity. Qed.
Lemma lstrip_nongap c r : gap c = false -> lstrip_p gap (c :: r) = c :: r.
Proof. intros H. cbn [lstrip_p]. rewrite H. reflexivity. Qed.
Lemma lstrip_length (x : str) : length (lstrip_p gap x) <= length x.
Proof. destruct (lstrip_p_decomp gap x) as (p & E & _). rewrite E at 2. rewrite app_length. lia. Qed.

(** ** One kind of dash: [h] for hyphens (at least two), [u] for the dash *)
Definition dash_pair (h : str) (u : char) : Prop :=
  (exists m, h = 45%N :: 45%N :: m) /\ u <> 45%N /\ gap u = false /\ ~ In u h.
Set Default Proof Using "All".
Section Dash.
Context (h : str) (u : char) (Hpair : dash_pair h u).
Let Hh : exists m, h = 45%N :: 45%N :: m := proj1 Hpair.
Let Hu45 : u <> 45%N := proj1 (proj2 Hpair).
Let Hug : gap u = false := proj1 (proj2 (proj2 Hpair)).
Let Huh : ~ In u h := proj2 (proj2 (proj2 Hpair)).
Notation at_ := (dash_at h u).
Notation sub := (sub_dash h u).

Lemma at_shrinks x r : at_ x = Some r -> length r < length x.
Proof.
  unfold dash_at. destruct (eat h (lstrip_p gap x)) as [z|] eqn:E.
  - apply eat_iff in E. intros [= <-]. pose proof (lstrip_length z). pose proof (lstrip_length x). rewrite E, app_length in H0.
    destruct Hh as [m ->]. cbn in H0. lia.
  - destruct (lstrip_p gap x) as [|c z] eqn:El; [discriminate|]. destruct (N.eqb c u); [|discriminate]. intros [= <-].
    pose proof (lstrip_length z). pose proof (lstrip_length x). rewrite El in H0. cbn [length] in H0. lia.
Qed.
Lemma sub_from_fuel : forall n n' x, length x < n -> length x < n' -> sub_from h u n x = sub_from h u n' x.
Proof.
  induction n as [|n IH]; intros n' x H H'; [lia|]. destruct n' as [|n']; [lia|]. cbn [sub_from].
  destruct (at_ x) as [r|] eqn:E.
  - pose proof (at_shrinks _ _ E). f_equal. apply IH; lia.
  - destruct x as [|c x]; [reflexivity|]. cbn [length] in H, H'. f_equal. apply IH; lia.
Qed.
Lemma sub_hit x r : at_ x = Some r -> sub x = u :: sub r.
Proof.
  intros E. unfold sub_dash at 1. cbn [sub_from]. rewrite E. f_equal. pose proof (at_shrinks _ _ E). apply sub_from_fuel; lia.
Qed.
Lemma sub_miss c x : at_ (c :: x) = None -> sub (c :: x) = c :: sub x.
Proof. intros E. unfold sub_dash at 1. cbn [sub_from]. rewrite E. reflexivity. Qed.
Lemma sub_nil : sub [] = [].
Proof. unfold sub_dash. cbn [length sub_from]. destruct (at_ []) eqn:E; [|reflexivity]. pose proof (at_shrinks _ _ E). cbn in H. lia. Qed.
Lemma sub_copy w z : (forall a b, w = a ++ b -> b <> [] -> at_ (b ++ z) = None) -> sub (w ++ z) = w ++ sub z.
Proof.
  induction w as [|c w IH]; intros H; [reflexivity|]. cbn [app]. rewrite sub_miss.
  - f_equal. apply IH. intros a b -> Hb. apply (H (c :: a) b); [reflexivity|exact Hb].
  - apply (H [] (c :: w)); [reflexivity|discriminate].
Qed.
(** A dash with spaces *)
Lemma at_dash s1 d s2 x : forallb gap s1 = true -> forallb gap s2 = true -> d = h \/ d = [u] ->
  (x = [] \/ exists c r, x = c :: r /\ gap c = false) -> at_ (s1 ++ d ++ s2 ++ x) = Some x.
Proof.
  intros H1 H2 Hd Hx. assert (Hs : lstrip_p gap (s2 ++ x) = x).
  { apply lstrip_p_unique; [exact H2|]. intros c r E. destruct Hx as [->|(c' & r' & -> & Hc)]; [discriminate|]. congruence. }
  unfold dash_at. rewrite lstrip_p_unique; [|exact H1|].
  - destruct Hd as [->| ->].
    + rewrite (proj2 (eat_iff h _ _) eq_refl). rewrite Hs. reflexivity.
    + assert (En : eat h ([u] ++ s2 ++ x) = None).
      { destruct Hh as [m ->]. cbn [app eat]. destruct (eqb_spec 45%N u); [congruence|reflexivity]. }
      rewrite En. cbn [app]. rewrite N.eqb_refl, Hs. reflexivity.
  - intros c r E. destruct Hd as [->| ->]; [|injection E as <- _; exact Hug].
    destruct Hh as [m ->]. injection E as <- _. reflexivity.
Qed.
Lemma at_gap c r : gap c = true -> at_ (c :: r) = at_ r.
Proof. intros H. unfold dash_at. rewrite lstrip_gap by exact H. reflexivity. Qed.
Lemma at_u r : at_ (u :: r) = Some (lstrip_p gap r).
Proof.
  unfold dash_at. rewrite lstrip_nongap by exact Hug. destruct Hh as [m ->]. cbn [eat].
  destruct (eqb_spec 45%N u); [congruence|]. rewrite N.eqb_refl. reflexivity.
Qed.
Lemma at_h r : exists z, at_ (h ++ r) = Some z.
Proof.
  unfold dash_at. assert (E : lstrip_p gap (h ++ r) = h ++ r). { destruct Hh as [m ->]. reflexivity. }
  rewrite E, (proj2 (eat_iff h _ _) eq_refl). eexists. reflexivity.
Qed.
Lemma at_some x r : at_ x = Some r -> exists s d z, x = s ++ d ++ z /\ forallb gap s = true /\ (d = h \/ d = [u]) /\ r = lstrip_p gap z.
Proof.
  unfold dash_at. destruct (lstrip_p_decomp gap x) as (p & Ex & Hp & _). destruct (eat h (lstrip_p gap x)) as [z|] eqn:E.
  - apply eat_iff in E. intros [= <-]. exists p, h, z. rewrite <- E. auto.
  - destruct (lstrip_p gap x) as [|c z] eqn:El; [discriminate|]. destruct (N.eqb_spec c u) as [->|]; [|discriminate]. intros [= <-].
    exists p, [u], z. cbn [app]. auto.
Qed.

(** *** The result *)
Lemma sub_suffix x : forall a b, sub x = a ++ b -> exists p x', x = p ++ x' /\ b = sub x'.
Proof.
  remember (length x) as n eqn:Hn. revert x Hn. induction n as [n IH] using lt_wf_ind. intros x -> a b E.
  destruct a as [|c a]; [exists [], x; split; [reflexivity|symmetry; exact E]|].
  destruct (at_ x) as [r|] eqn:Er.
  - rewrite (sub_hit _ _ Er) in E. injection E as _ E. pose proof (at_shrinks _ _ Er) as Hl.
    destruct (IH _ Hl r eq_refl a b E) as (p & x' & -> & ->). destruct (at_some _ _ Er) as (s & d & z & -> & _ & _ & Ez).
    destruct (lstrip_p_decomp gap z) as (q & Eq & _). exists (s ++ d ++ q ++ p), x'. split; [|reflexivity].
    rewrite <- !app_assoc. rewrite Eq, <- Ez. reflexivity.
  - destruct x as [|d x]; [rewrite sub_nil in E; discriminate|]. rewrite (sub_miss _ _ Er) in E. injection E as <- E.
    destruct (IH (length x) ltac:(cbn; lia) x eq_refl a b E) as (p & x' & -> & ->). exists (d :: p), x'. auto.
Qed.
Lemma sub_head c x y : sub x = c :: y -> c <> u -> exists r, x = c :: r /\ at_ x = None /\ y = sub r.
Proof.
  intros E Hc. destruct (at_ x) as [r|] eqn:Er; [rewrite (sub_hit _ _ Er) in E; congruence|].
  destruct x as [|d x]; [rewrite sub_nil in E; discriminate|]. rewrite (sub_miss _ _ Er) in E. injection E as -> <-.
  exists x. auto.
Qed.
Lemma sub_prefix p : ~ In u p -> forall x y, sub x = p ++ y -> exists z, x = p ++ z /\ y = sub z.
Proof.
  induction p as [|c p IH]; intros Hp x y E; [exists x; auto|].
  destruct (sub_head c x (p ++ y) E) as (r & -> & _ & Er); [intros ->; apply Hp; left; reflexivity|].
  destruct (IH (fun H => Hp (or_intror H)) r y (eq_sym Er)) as (z & -> & ->). exists z. auto.
Qed.
Definition set_dash (y : str) : Prop :=
  contains y h = false /\ (forall a c b, y = a ++ c :: u :: b -> gap c = false) /\ (forall a c b, y = a ++ u :: c :: b -> gap c = false).
Lemma sub_set x : set_dash (sub x).
Proof.
  split; [|split].
  - destruct (contains (sub x) h) eqn:E; [|reflexivity]. exfalso. apply contains_iff in E as (a & b & E).
    destruct (sub_suffix x a (h ++ b) E) as (p & x' & _ & E'). symmetry in E'.
    destruct (sub_prefix h Huh x' b E') as (z & -> & _). destruct (at_h z) as [r Er]. rewrite (sub_hit _ _ Er) in E'.
    destruct Hh as [m Em]. rewrite Em in E'. injection E' as E' _. congruence.
  - intros a c b E. destruct (gap c) eqn:Hc; [|reflexivity]. exfalso.
    destruct (sub_suffix x a _ E) as (p & x' & _ & E'). symmetry in E'.
    destruct (sub_head c x' _ E') as (r & -> & Hn & Er); [intros ->; congruence|]. rewrite at_gap in Hn by exact Hc.
    destruct r as [|d r]; [rewrite sub_nil in Er; discriminate|]. rewrite (sub_miss _ _ Hn) in Er. injection Er as Ed _. rewrite <- Ed in Hn.
    rewrite at_u in Hn. discriminate.
  - intros a c b E. destruct (gap c) eqn:Hc; [|reflexivity]. exfalso.
    destruct (sub_suffix x a _ E) as (p & x' & _ & E'). symmetry in E'. destruct (at_ x') as [r|] eqn:Er.
    + rewrite (sub_hit _ _ Er) in E'. injection E' as E'. destruct (sub_head c r _ E') as (r' & -> & _); [intros ->; congruence|].
      destruct (at_some _ _ Er) as (s & d & z & _ & _ & _ & Ez). destruct (lstrip_p_decomp gap z) as (q & _ & _ & Hz).
      specialize (Hz c r' (eq_sym Ez)). congruence.
    + destruct x' as [|d x']; [rewrite sub_nil in E'; discriminate|]. rewrite (sub_miss _ _ Er) in E'. injection E' as Ed _. rewrite Ed in Er.
      rewrite at_u in Er. discriminate.
Qed.
(** Text with dashes set does not change. *)
Lemma sub_same y : set_dash y -> sub y = y.
Proof.
  intros (H1 & H2 & H3). assert (G : forall a b, y = a ++ b -> sub b = b).
  { intros a b. remember (length b) as n eqn:Hn. revert a b Hn. induction n as [|n IH]; intros a b Hn E.
    - destruct b; [apply sub_nil|discriminate Hn].
    - destruct b as [|c b]; [discriminate Hn|]. injection Hn as Hn.
      assert (Eb : y = (a ++ [c]) ++ b) by (rewrite E, <- app_assoc; reflexivity). specialize (IH (a ++ [c]) b Hn Eb).
      destruct (at_ (c :: b)) as [r|] eqn:Er.
      + destruct (at_some _ _ Er) as (s & d & z & Ex & Hs & Hd & Ez).
        assert (Ed : d = [u]).
        { destruct Hd as [->|]; [|assumption]. exfalso. assert (contains y h = true); [|congruence].
          apply contains_iff. exists (a ++ s), z. rewrite E, Ex, <- !app_assoc. reflexivity. }
        subst d. destruct s as [|c' s].
        * cbn [app] in Ex. injection Ex as Ec Eb2. rewrite Ec in *. subst b.  rewrite at_u in Er. injection Er as <-. rewrite (sub_hit _ _ (at_u z)).
          assert (Ez' : lstrip_p gap z = z).
          { destruct z as [|e z]; [reflexivity|]. apply lstrip_nongap. apply (H3 a e z). exact E. }
          rewrite Ez', IH. reflexivity.
        * exfalso. destruct (exists_last (l := c' :: s)) as (s' & e & Es); [discriminate|].
          assert (Hg : gap e = true). { rewrite forallb_forall in Hs. apply Hs. rewrite Es. apply in_or_app. right. left. reflexivity. }
          rewrite Es in Ex. assert (gap e = false); [|congruence]. apply (H2 (a ++ s') e z). rewrite E, Ex, <- !app_assoc. reflexivity.
      + rewrite (sub_miss _ _ Er), IH. reflexivity. }
  apply (G []). reflexivity.
Qed.
(** Plain text is copied. *)
Lemma sub_plain w z : plain w -> ~ In u w -> (ends_outer w \/ z = []) -> sub (w ++ z) = w ++ sub z.
Proof.
  intros (Hp & _ & _) Hu Hw. apply sub_copy. intros a b E Hb.
  destruct (at_ (b ++ z)) as [r|] eqn:Er; [|reflexivity]. exfalso.
  destruct (at_some _ _ Er) as (s & d & v & Ex & Hs & Hd & _).
  assert (Hbg : ends_outer w -> forallb gap b = false /\ forall q, b <> q ++ [45%N]).
  { intros [->|(c & q & -> & Hc & Hc2)].
    - destruct a; [|discriminate]. cbn in E. congruence.
    - destruct (exists_last Hb) as (b' & e & ->). rewrite app_assoc in E. apply app_inj_tail in E as [_ <-]. split.
      + rewrite forallb_app. cbn [forallb]. apply gap_not in Hc. rewrite Hc, andb_false_r. reflexivity.
      + intros q' Eq. apply app_inj_tail in Eq as [_ ->]. apply Hc2. left. reflexivity. }
  assert (Hlen : length s < length b \/ z = [] /\ length b <= length s).
  { destruct (le_lt_dec (length b) (length s)) as [Hl|]; [|left; assumption]. right. split; [|exact Hl]. destruct Hw as [Hw| ->]; [|reflexivity].
    exfalso. destruct (Hbg Hw) as [Hg _]. assert (Hsb : exists t, s = b ++ t).
    { clear - Ex Hl. revert s Ex Hl. induction b as [|x b IH]; intros s Ex Hl; [exists s; reflexivity|].
      destruct s as [|y s]; [cbn in Hl; lia|]. injection Ex as <- Ex. destruct (IH s Ex) as [t ->]; [cbn in Hl; lia|]. exists t. reflexivity. }
    destruct Hsb as [t ->]. rewrite forallb_app in Hs. apply andb_true_iff in Hs as [Hs _]. congruence. }
  assert (Hsplit : length s < length b -> exists c t, b = s ++ c :: t /\ c :: t ++ z = d ++ v).
  { clear - Ex. revert b Ex. induction s as [|y s IH]; intros b Ex Hl.
    - destruct b as [|c t]; [cbn in Hl; lia|]. exists c, t. split; [reflexivity|exact Ex].
    - destruct b as [|x b]; [cbn in Hl; lia|]. injection Ex as -> Ex. destruct (IH b Ex) as (c & t & -> & Ec); [cbn in Hl; lia|].
      exists c, t. auto. }
  destruct Hlen as [Hlen|[-> Hlen]].
  - destruct (Hsplit Hlen) as (c & t & -> & Ec). destruct Hd as [->| ->].
    + destruct Hh as [m Em]. rewrite Em in Ec. injection Ec as -> Ec. destruct t as [|c2 t].
      * destruct Hw as [Hw| ->]; [|discriminate Ec]. destruct (Hbg Hw) as [_ Hq]. apply (Hq s). reflexivity.
      * injection Ec as -> _. assert (contains w (lit "--") = true); [|congruence]. apply contains_iff. exists (a ++ s), t.
        rewrite E, <- app_assoc. reflexivity.
    + injection Ec as -> _. apply Hu. rewrite E. apply in_or_app. right. apply in_or_app. right. left. reflexivity.
  - rewrite app_nil_r in Ex. apply (f_equal (@length _)) in Ex. rewrite !app_length in Ex.
    destruct Hd as [->| ->]; [destruct Hh as [m ->]|]; cbn in Ex; lia.
Qed.
Lemma sub_spaces s z : forallb gap s = true -> at_ z = None -> sub (s ++ z) = s ++ sub z.
Proof.
  intros Hs Hz. apply sub_copy. intros a b E _. rewrite E, forallb_app in Hs. apply andb_true_iff in Hs as [_ Hb]. clear E.
  induction b as [|c b IH]; [exact Hz|]. cbn [forallb] in Hb. apply andb_true_iff in Hb as [Hc Hb].
  cbn [app]. rewrite at_gap by exact Hc. apply IH, Hb.
Qed.
Lemma at_none c r : gap c = false -> c <> u -> eat h (c :: r) = None -> at_ (c :: r) = None.
Proof.
  intros Hg Hc He. unfold dash_at. rewrite lstrip_nongap by exact Hg. rewrite He. destruct (N.eqb_spec c u); [contradiction|reflexivity].
Qed.
End Dash.
Unset Default Proof Using.

(** ** Both kinds *)
Notation em := (sub_dash (lit "---") em_dash).
Notation en := (sub_dash (lit "--") en_dash).
Lemma em1 : dash_pair (lit "---") em_dash.
Proof. split; [exists [45%N]; reflexivity|]. split; [discriminate|]. split; [reflexivity|]. cbn. intuition discriminate. Qed.
Lemma en1 : dash_pair (lit "--") en_dash.
Proof. split; [exists []; reflexivity|]. split; [discriminate|]. split; [reflexivity|]. cbn. intuition discriminate. Qed.

Definition set_dashes (y : str) : Prop := set_dash (lit "---") em_dash y /\ set_dash (lit "--") en_dash y.
Lemma contains_three y : contains y (lit "--") = false -> contains y (lit "---") = false.
Proof.
  intros H. destruct (contains y (lit "---")) eqn:E; [|reflexivity]. apply contains_iff in E as (a & b & ->).
  assert (contains (a ++ lit "---" ++ b) (lit "--") = true); [|congruence]. apply contains_iff. exists a, (45%N :: b). reflexivity.
Qed.
Lemma dashes_set x : set_dashes (dashes x).
Proof.
  unfold dashes. pose proof (sub_set (lit "---") em_dash em1 x) as (E1 & E2 & E3).
  pose proof (sub_set (lit "--") en_dash en1 (em x)) as H. split; [|exact H]. destruct H as (N1 & _).
  split; [apply contains_three, N1|]. split.
  - intros a c b E. destruct (gap c) eqn:Hc; [|reflexivity]. exfalso.
    destruct (sub_suffix (lit "--") en_dash en1 (em x) _ _ E) as (p & x' & Ex & E').
    symmetry in E'. destruct (sub_prefix (lit "--") en_dash en1 [c; em_dash]) with (x := x') (y := b) as (z & Ez & _).
    + cbn. intros [Hi|[Hi|[]]]; [|discriminate]. rewrite Hi in Hc. discriminate.
    + exact E'.
    + rewrite Ez in Ex. specialize (E2 p c z Ex). congruence.
  - intros a c b E. destruct (gap c) eqn:Hc; [|reflexivity]. exfalso.
    destruct (sub_suffix (lit "--") en_dash en1 (em x) _ _ E) as (p & x' & Ex & E').
    symmetry in E'. destruct (sub_prefix (lit "--") en_dash en1 [em_dash; c]) with (x := x') (y := b) as (z & Ez & _).
    + cbn. intros [Hi|[Hi|[]]]; [discriminate|]. rewrite Hi in Hc. discriminate.
    + exact E'.
    + rewrite Ez in Ex. specialize (E3 p c z Ex). congruence.
Qed.
Lemma dashes_same y : set_dashes y -> dashes y = y.
Proof.
  intros [H1 H2]. unfold dashes. rewrite (sub_same (lit "---") em_dash em1 y H1).
  exact (sub_same (lit "--") en_dash en1 y H2).
Qed.
Lemma starts_copied x : starts_outer x -> starts_outer (em x) /\ starts_outer (en x) /\ dash_at (lit "---") em_dash x = None.
Proof.
  intros [->|(c & r & -> & Hc & Hn)]; [split; [left; reflexivity|split; [left; reflexivity|reflexivity]]|].
  apply gap_not in Hc. assert (H45 : c <> 45%N) by (intros ->; apply Hn; left; reflexivity).
  assert (He : dash_at (lit "---") em_dash (c :: r) = None).
  { apply at_none; [exact em1|exact Hc|intros ->; apply Hn; right; right; left; reflexivity|]. change (lit "---") with [45; 45; 45]%N. cbn [eat].
    destruct (eqb_spec 45%N c); [congruence|reflexivity]. }
  assert (Hen : dash_at (lit "--") en_dash (c :: r) = None).
  { apply at_none; [exact en1|exact Hc|intros ->; apply Hn; right; left; reflexivity|]. change (lit "--") with [45; 45]%N. cbn [eat].
    destruct (eqb_spec 45%N c); [congruence|reflexivity]. }
  split; [|split; [|exact He]]; right; eexists _, _; (split; [apply sub_miss; [first [exact em1|exact en1]|assumption]|]); (split; [apply gap_not, Hc|exact Hn]).
Qed.
Lemma all_gap s : (forall c, In c s -> space_char c) -> forallb gap s = true.
Proof. intros H. apply forallb_forall. intros c Hc. apply gap_iff, H, Hc. Qed.
Lemma outer_gap x : starts_outer x -> x = [] \/ exists c r, x = c :: r /\ gap c = false.
Proof. intros [->|(c & r & -> & Hc & _)]; [left; reflexivity|]. right. exists c, r. split; [reflexivity|apply gap_not, Hc]. Qed.

Lemma dashes_with x y : with_dashes x y -> dashes x = y.
Proof.
  unfold dashes. intros H. induction H as [w Hw|w s1 d s2 x u y Hw He Hs Hd H IH Hx].
  - pose proof Hw as (_ & Hn1 & Hn2). pose proof (sub_plain (lit "---") em_dash em1 w [] Hw Hn2 (or_intror eq_refl)) as E1.
    rewrite app_nil_r, sub_nil, app_nil_r in E1 by exact em1. rewrite E1.
    pose proof (sub_plain (lit "--") en_dash en1 w [] Hw Hn1 (or_intror eq_refl)) as E2.
    rewrite app_nil_r, sub_nil, app_nil_r in E2 by exact en1. exact E2.
  - pose proof Hw as (_ & Hn1 & Hn2).
    assert (H1 : forallb gap s1 = true) by (apply all_gap; intros c Hc; apply Hs, in_or_app; left; exact Hc).
    assert (H2 : forallb gap s2 = true) by (apply all_gap; intros c Hc; apply Hs, in_or_app; right; exact Hc).
    rewrite (sub_plain (lit "---") em_dash em1 w _ Hw Hn2 (or_introl He)).
    destruct (starts_copied x Hx) as (Hxe & _ & Hxn).
    assert (Hm : (d = lit "---" \/ d = [em_dash]) /\ u = em_dash \/ (d = lit "--" \/ d = [en_dash]) /\ u = en_dash).
    { inversion Hd; [left|left|right|right]; (split; [|reflexivity]); auto. }
    destruct Hm as [[Hd' ->]|[Hd' ->]].
    + rewrite (sub_hit (lit "---") em_dash em1 _ x) by (apply at_dash; [exact em1|assumption..|apply outer_gap, Hx]).
      rewrite (sub_plain (lit "--") en_dash en1 w _ Hw Hn1 (or_introl He)). f_equal.
      rewrite sub_miss; [f_equal; exact IH|exact en1|]. apply at_none; [exact en1|reflexivity|discriminate|reflexivity].
    + assert (Ed : em (s1 ++ d ++ s2 ++ x) = s1 ++ d ++ s2 ++ em x).
      { assert (E2 : em (s2 ++ x) = s2 ++ em x) by (apply sub_spaces; [exact em1|assumption..]).
        assert (Hhead : forall r, lit "---" <> r -> True) by auto.
        assert (Hnh : match s2 ++ x with c :: _ => c <> 45%N | [] => True end).
        { destruct s2 as [|c s2]; cbn [app].
          - destruct Hx as [->|(c & r & -> & _ & Hc)]; [exact I|]. intros ->. apply Hc. left. reflexivity.
          - cbn [forallb] in H2. apply andb_true_iff in H2 as [H2 _]. intros ->. discriminate H2. }
        assert (D : forall a b, d = a ++ b -> b <> [] -> dash_at (lit "---") em_dash (b ++ s2 ++ x) = None).
        { intros a b E Hb. destruct Hd' as [->| ->].
          - destruct a as [|a0 [|a1 a]].
            + cbn [app] in E. subst b. change (lit "--" ++ s2 ++ x) with (45%N :: 45%N :: s2 ++ x).
              apply at_none; [exact em1|reflexivity|discriminate|]. change (lit "---") with [45; 45; 45]%N. cbn [eat]. rewrite !eqb_refl.
              destruct (s2 ++ x) as [|c r]; [reflexivity|]. destruct (eqb_spec 45%N c); [congruence|reflexivity].
            + injection E as <- E. subst b. change ([45%N] ++ s2 ++ x) with (45%N :: s2 ++ x).
              apply at_none; [exact em1|reflexivity|discriminate|]. change (lit "---") with [45; 45; 45]%N. cbn [eat]. rewrite eqb_refl.
              destruct (s2 ++ x) as [|c r]; [reflexivity|]. destruct (eqb_spec 45%N c); [congruence|reflexivity].
            + injection E as <- <- E. symmetry in E. apply app_eq_nil in E as [_ ->]. congruence.
          - destruct a as [|a0 a]; [|injection E as <- E; symmetry in E; apply app_eq_nil in E as [_ ->]; congruence].
            cbn [app] in E. subst b. cbn [app]. apply at_none; [exact em1|reflexivity|discriminate|reflexivity]. }
        assert (Ed : em (d ++ s2 ++ x) = d ++ s2 ++ em x). { rewrite sub_copy by (first [exact em1|exact D]). rewrite E2. reflexivity. }
        rewrite <- Ed. apply sub_spaces; [exact em1|exact H1|]. apply (D [] d eq_refl). destruct Hd' as [->| ->]; discriminate. }
      rewrite Ed. rewrite (sub_plain (lit "--") en_dash en1 w _ Hw Hn1 (or_introl He)). f_equal.
      rewrite (sub_hit (lit "--") en_dash en1 _ (em x)) by (apply at_dash; [exact en1|assumption..|apply outer_gap, Hxe]).
      f_equal. exact IH.
Qed.

(** Other characters stay. *)
Definition kept (c : char) : bool := negb (gap c) && negb (N.eqb c 45) && negb (N.eqb c 8211) && negb (N.eqb c 8212).
Lemma sub_kept h u (Hh : dash_pair h u) : forallb (fun c => negb (kept c)) h = true -> kept u = false ->
  forall x, filter kept (sub_dash h u x) = filter kept x.
Proof.
  intros Hk Hu. assert (Z : forall s, forallb (fun c => negb (kept c)) s = true -> filter kept s = []).
  { induction s as [|c s IH]; [reflexivity|]. cbn [forallb filter]. intros E. apply andb_true_iff in E as [Ec E]. apply negb_true_iff in Ec.
    rewrite Ec. apply IH, E. }
  assert (G : forall s, forallb gap s = true -> filter kept s = []).
  { intros s Hs. apply Z. rewrite forallb_forall in *. intros c Hc. unfold kept. rewrite (Hs c Hc). reflexivity. }
  intros x. remember (length x) as n eqn:Hn. revert x Hn. induction n as [n IH] using lt_wf_ind. intros x ->.
  destruct (dash_at h u x) as [r|] eqn:Er.
  - rewrite (sub_hit h u Hh _ _ Er). cbn [filter]. rewrite Hu. rewrite (IH (length r)) by (try reflexivity; apply (at_shrinks h u Hh _ _ Er)).
    destruct (at_some _ _ Hh _ _ Er) as (s & d & z & -> & Hs & Hd & ->). rewrite !filter_app, (G s Hs). cbn [app].
    assert (Ed : filter kept d = []). { destruct Hd as [->| ->]; [apply Z, Hk|]. cbn [filter]. rewrite Hu. reflexivity. }
    rewrite Ed. cbn [app]. destruct (lstrip_p_decomp gap z) as (p & Ez & Hp & _). rewrite Ez at 2. rewrite filter_app, (G p Hp). reflexivity.
  - destruct x as [|c x]; [rewrite sub_nil by exact Hh; reflexivity|]. rewrite (sub_miss _ _ Hh _ _ Er). cbn [filter].
    rewrite (IH (length x)) by (try reflexivity; cbn; lia). reflexivity.
Qed.
Lemma dashes_kept x : filter kept (dashes x) = filter kept x.
Proof.
  unfold dashes. rewrite (sub_kept (lit "--") en_dash en1) by reflexivity. apply (sub_kept (lit "---") em_dash em1); reflexivity.
Qed.

(** ** Quotes *)
Section Quotes.
Context (uw : char -> bool) (Huw : marks_are_no_words uw).
Definition cls (o : option char) : bool * bool := (word uw o, visible o).
Definition ext : Type := bool * bool -> char -> bool * bool -> char.
Fixpoint neigh (F : ext) (p : bool * bool) (x : str) : str :=
  match x with nil => nil | c :: r => F p c (cls (hd_error r)) :: neigh F (cls (Some c)) r end.
Definition keeps (F : ext) : Prop := forall a c b, cls (Some (F a c b)) = cls (Some c).
Lemma neigh_comp F G : keeps F -> forall p x, neigh G p (neigh F p x) = neigh (fun a c b => G a (F a c b) b) p x.
Proof.
  intros HF p x. revert p. induction x as [|c x IH]; intros p; [reflexivity|]. cbn [neigh].
  assert (E : cls (hd_error (neigh F (cls (Some c)) x)) = cls (hd_error x)).
  { destruct x as [|d x]; [reflexivity|]. cbn [neigh hd_error]. apply HF. }
  rewrite E. f_equal. rewrite HF. apply IH.
Qed.
Lemma neigh_ext F G : (forall a c b, F a c b = G a c b) -> forall p x, neigh F p x = neigh G p x.
Proof. intros H p x. revert p. induction x as [|c x IH]; intros p; [reflexivity|]. cbn [neigh]. rewrite H, IH. reflexivity. Qed.
Definition Fap : ext := fun a c b => if N.eqb c 39 && fst a && fst b then 8217%N else c.
Definition Fss : ext := fun a c b => if N.eqb c 39 && negb (fst a) && snd b then 8216%N else c.
Definition Fse : ext := fun a c b => if N.eqb c 39 && snd a && negb (fst b) then 8217%N else c.
Definition Fds : ext := fun a c b => if N.eqb c 34 && negb (fst a) && snd b then 8220%N else c.
Definition Fde : ext := fun a c b => if N.eqb c 34 && snd a && negb (fst b) then 8221%N else c.
Lemma neigh_eq (f : option char -> char -> option char -> char) F : (forall p c n, f p c n = F (cls p) c (cls n)) ->
  forall p x, neighbours f p x = neigh F (cls p) x.
Proof. intros H p x. revert p. induction x as [|c x IH]; intros p; [reflexivity|]. cbn [neighbours neigh]. rewrite H, IH. reflexivity. Qed.
Lemma cls_mark c : In c [8216; 8217; 8220; 8221]%N -> cls (Some c) = (false, true).
Proof.
  intros H. unfold cls. cbn [word visible]. assert (Hw : uw c = false). { apply Huw. right. right. exact H. }
  unfold is_word. rewrite Hw. cbn [In] in H. destruct H as [<-|[<-|[<-|[<-|[]]]]]; reflexivity.
Qed.
Lemma cls_39 : cls (Some 39%N) = (false, true). Proof. reflexivity. Qed.
Lemma cls_34 : cls (Some 34%N) = (false, true). Proof. reflexivity. Qed.
Lemma keeps_if (t : bool * bool -> bool * bool -> bool) k m : cls (Some k) = (false, true) -> In m [8216; 8217; 8220; 8221]%N ->
  keeps (fun a c b => if N.eqb c k && t a b then m else c).
Proof.
  intros Hk Hm a c b. destruct (N.eqb_spec c k) as [->|]; cbn [andb]; [|reflexivity]. destruct (t a b); [|reflexivity].
  rewrite Hk. apply cls_mark, Hm.
Qed.
Lemma keeps_all : keeps Fap /\ keeps Fss /\ keeps Fse /\ keeps Fds /\ keeps Fde.
Proof.
  assert (K : forall F G : ext, (forall a c b, F a c b = G a c b) -> keeps G -> keeps F) by (intros F G E H a c b; rewrite E; apply H).
  repeat split.
  - apply (K _ (fun a c b => if N.eqb c 39 && (fst a && fst b) then 8217%N else c)); [intros; unfold Fap; rewrite andb_assoc; reflexivity|].
    apply (keeps_if (fun a b => fst a && fst b)); [apply cls_39|cbn; tauto].
  - apply (K _ (fun a c b => if N.eqb c 39 && (negb (fst a) && snd b) then 8216%N else c)); [intros; unfold Fss; rewrite andb_assoc; reflexivity|].
    apply (keeps_if (fun a b => negb (fst a) && snd b)); [apply cls_39|cbn; tauto].
  - apply (K _ (fun a c b => if N.eqb c 39 && (snd a && negb (fst b)) then 8217%N else c)); [intros; unfold Fse; rewrite andb_assoc; reflexivity|].
    apply (keeps_if (fun a b => snd a && negb (fst b))); [apply cls_39|cbn; tauto].
  - apply (K _ (fun a c b => if N.eqb c 34 && (negb (fst a) && snd b) then 8220%N else c)); [intros; unfold Fds; rewrite andb_assoc; reflexivity|].
    apply (keeps_if (fun a b => negb (fst a) && snd b)); [apply cls_34|cbn; tauto].
  - apply (K _ (fun a c b => if N.eqb c 34 && (snd a && negb (fst b)) then 8221%N else c)); [intros; unfold Fde; rewrite andb_assoc; reflexivity|].
    apply (keeps_if (fun a b => snd a && negb (fst b))); [apply cls_34|cbn; tauto].
Qed.
(** All substitutions of quotes at once *)
Definition Fq : ext := fun a c b =>
  if N.eqb c 39 then
    if fst a && fst b then 8217%N else if negb (fst a) && snd b then 8216%N else if snd a && negb (fst b) then 8217%N else c
  else if N.eqb c 34 then
    if negb (fst a) && snd b then 8220%N else if snd a && negb (fst b) then 8221%N else c
  else c.
Lemma keeps_comp F G : keeps F -> keeps G -> keeps (fun a c b => G a (F a c b) b).
Proof. intros HF HG a c b. rewrite HG. apply HF. Qed.
Lemma quotes_eq x : quotes uw x = neigh Fq (false, false) x.
Proof.
  destruct keeps_all as (K1 & K2 & K3 & K4 & K5). unfold quotes.
  rewrite (neigh_eq (apostrophe uw) Fap), (neigh_eq (single_start uw) Fss), (neigh_eq (single_end uw) Fse), (neigh_eq (double_start uw) Fds), (neigh_eq (double_end uw) Fde) by reflexivity.
  change (cls None) with (false, false).
  rewrite (neigh_comp Fap Fss K1). rewrite (neigh_comp _ Fse (keeps_comp _ _ K1 K2)).
  rewrite (neigh_comp _ Fds (keeps_comp _ _ (keeps_comp _ _ K1 K2) K3)).
  rewrite (neigh_comp _ Fde (keeps_comp _ _ (keeps_comp _ _ (keeps_comp _ _ K1 K2) K3) K4)).
  apply neigh_ext. intros [a1 a2] c [b1 b2]. unfold Fde, Fds, Fse, Fss, Fap, Fq. cbn [fst snd].
  destruct (N.eqb_spec c 39) as [->|H39].
  - destruct a1, a2, b1, b2; reflexivity.
  - cbn [andb]. destruct (N.eqb_spec c 39) as [|_]; [contradiction|]. cbn [andb].
    destruct (N.eqb_spec c 39) as [|_]; [contradiction|]. cbn [andb]. destruct (N.eqb_spec c 34) as [->|H34].
    + destruct a1, a2, b1, b2; reflexivity.
    + cbn [andb]. destruct (N.eqb_spec c 34) as [|_]; [contradiction|]. reflexivity.
Qed.
Lemma Fq_twice a c b : Fq a (Fq a c b) b = Fq a c b.
Proof.
  unfold Fq. destruct (N.eqb_spec c 39) as [->|H39].
  - destruct a as [[] []], b as [[] []]; reflexivity.
  - destruct (N.eqb_spec c 34) as [->|H34].
    + destruct a as [[] []], b as [[] []]; reflexivity.
    + destruct (N.eqb_spec c 39) as [|_]; [contradiction|]. destruct (N.eqb_spec c 34) as [|_]; [contradiction|]. reflexivity.
Qed.
Lemma keeps_Fq : keeps Fq.
Proof.
  intros a c b. unfold Fq. destruct (N.eqb_spec c 39) as [->|H39].
  - rewrite cls_39. destruct (fst a && fst b); [apply cls_mark; cbn; tauto|]. destruct (negb (fst a) && snd b); [apply cls_mark; cbn; tauto|].
    destruct (snd a && negb (fst b)); [apply cls_mark; cbn; tauto|reflexivity].
  - destruct (N.eqb_spec c 34) as [->|H34]; [|reflexivity].
    rewrite cls_34. destruct (negb (fst a) && snd b); [apply cls_mark; cbn; tauto|].
    destruct (snd a && negb (fst b)); [apply cls_mark; cbn; tauto|reflexivity].
Qed.
Lemma quotes_twice x : quotes uw (quotes uw x) = quotes uw x.
Proof. rewrite !quotes_eq. rewrite (neigh_comp Fq Fq keeps_Fq). apply neigh_ext. apply Fq_twice. Qed.
(** Only quotes change, and to other quotes. *)
Definition similar (c d : char) : Prop := d = c \/ (c = 39%N \/ c = 34%N) /\ In d [8216; 8217; 8220; 8221]%N.
Lemma Fq_similar a c b : similar c (Fq a c b).
Proof.
  unfold Fq, similar. destruct (N.eqb_spec c 39) as [->|H39].
  - destruct (fst a && fst b); [right; cbn; tauto|]. destruct (negb (fst a) && snd b); [right; cbn; tauto|].
    destruct (snd a && negb (fst b)); [right; cbn; tauto|left; reflexivity].
  - destruct (N.eqb_spec c 34) as [->|H34]; [|left; reflexivity].
    destruct (negb (fst a) && snd b); [right; cbn; tauto|]. destruct (snd a && negb (fst b)); [right; cbn; tauto|left; reflexivity].
Qed.
Lemma quotes_similar x : Forall2 similar x (quotes uw x).
Proof.
  rewrite quotes_eq. generalize (false, false). induction x as [|c x IH]; intros p; [constructor|]. cbn [neigh].
  constructor; [apply Fq_similar|apply IH].
Qed.
Lemma similar_app x a b : Forall2 similar x (a ++ b) -> exists a' b', x = a' ++ b' /\ Forall2 similar a' a /\ Forall2 similar b' b.
Proof.
  revert x. induction a as [|c a IH]; intros x H; [exists [], x; split; [reflexivity|]; split; [constructor|exact H]|].
  inversion H as [|d c' x' y' Hd Hx]; subst. destruct (IH _ Hx) as (a' & b' & -> & Ha & Hb). exists (d :: a'), b'.
  split; [reflexivity|]. split; [constructor; assumption|exact Hb].
Qed.
Lemma similar_fixed c d : similar c d -> ~ In d [8216; 8217; 8220; 8221]%N -> c = d.
Proof. intros [->|[_ H]] Hn; [reflexivity|contradiction]. Qed.
Lemma similar_set h u x y : ~ (exists d, In d (u :: h) /\ In d [8216; 8217; 8220; 8221]%N) -> Forall2 similar x y -> set_dash h u x -> set_dash h u y.
Proof.
  intros Hn H (H1 & H2 & H3).
  assert (Fx : forall p q, Forall2 similar p q -> (forall d, In d q -> In d (u :: h)) -> p = q).
  { intros p q Hp. induction Hp as [|c d p q Hc _ IH]; intros Hq; [reflexivity|]. f_equal.
    - apply similar_fixed; [exact Hc|]. intros Hd. apply Hn. exists d. split; [apply Hq; left; reflexivity|exact Hd].
    - apply IH. intros e He. apply Hq. right. exact He. }
  assert (Gp : forall c d, similar c d -> gap c = false -> gap d = false).
  { intros c d [->|[_ Hd]] Hc; [exact Hc|]. cbn in Hd. destruct Hd as [<-|[<-|[<-|[<-|[]]]]]; reflexivity. }
  split; [|split].
  - destruct (contains y h) eqn:E; [|reflexivity]. exfalso. apply contains_iff in E as (a & b & ->).
    destruct (similar_app _ _ _ H) as (a' & r & -> & _ & Hr). destruct (similar_app _ _ _ Hr) as (h' & b' & -> & Hh & _).
    rewrite (Fx h' h Hh (fun d Hd => or_intror Hd)) in H1. assert (contains (a' ++ h ++ b') h = true); [|congruence].
    apply contains_iff. exists a', b'. reflexivity.
  - intros a c b ->. destruct (similar_app _ _ _ H) as (a' & r & -> & _ & Hr).
    inversion Hr as [|c' c2 r' r2 Hc Hr']; subst. inversion Hr' as [|u' u2 b' b2 Hu Hb]; subst.
    assert (u' = u). { apply similar_fixed; [exact Hu|]. intros Hd. apply Hn. exists u. split; [left; reflexivity|exact Hd]. }
    subst u'. apply (Gp c' c Hc). exact (H2 a' c' b' eq_refl).
  - intros a c b ->. destruct (similar_app _ _ _ H) as (a' & r & -> & _ & Hr).
    inversion Hr as [|u' u2 r' r2 Hu Hr']; subst. inversion Hr' as [|c' c2 b' b2 Hc Hb]; subst.
    assert (u' = u). { apply similar_fixed; [exact Hu|]. intros Hd. apply Hn. exists u. split; [left; reflexivity|exact Hd]. }
    subst u'. apply (Gp c' c Hc). exact (H3 a' c' b' eq_refl).
Qed.
Lemma quotes_set x : set_dashes x -> set_dashes (quotes uw x).
Proof.
  intros [H1 H2]. split; (eapply similar_set; [|apply quotes_similar|eassumption]); intros (d & Hd & Hm); cbn in Hd, Hm;
    intuition (subst; discriminate).
Qed.
Lemma neigh_nth F : forall x p i c, nth_error x i = Some c ->
  nth_error (neigh F p x) i = Some (F (match i with O => p | S j => cls (nth_error x j) end) c (cls (nth_error x (S i)))).
Proof.
  induction x as [|d x IH]; intros p i c E; [destruct i; discriminate E|]. destruct i as [|i]; cbn [nth_error neigh] in *.
  - injection E as ->. destruct x; reflexivity.
  - rewrite (IH _ i c E). destruct i; reflexivity.
Qed.
Lemma neigh_length F p x : length (neigh F p x) = length x.
Proof. revert p. induction x as [|c x IH]; intros p; [reflexivity|]. cbn [neigh length]. rewrite IH. reflexivity. Qed.
Lemma word_iff o : word uw o = true <-> a_word uw o.
Proof. unfold a_word. destruct o as [c|]; cbn [word]; split; [intros H; exists c; auto|intros (d & [= ->] & H); exact H|discriminate|intros (d & [=] & _)]. Qed.
Lemma visible_iff o : visible o = true <-> a_mark o.
Proof.
  unfold a_mark. destruct o as [c|]; cbn [visible]; split; [intros H; exists c; split; [reflexivity|apply negb_true_iff, H]|intros (d & [= ->] & H); rewrite H; reflexivity|discriminate|intros (d & [=] & _)].
Qed.
Lemma word_mark o : a_word uw o -> a_mark o.
Proof.
  intros (c & -> & H). exists c. split; [reflexivity|]. apply is_word_not_space in H. apply not_space_rx, H.
Qed.
Lemma Fq_becomes p c n : becomes uw p c n (Fq (cls p) c (cls n)).
Proof.
  unfold Fq, cls. cbn [fst snd].
  assert (Hw : forall o, word uw o = true -> visible o = true) by (intros o H; apply visible_iff, word_mark, word_iff, H).
  destruct (N.eqb_spec c 39) as [->|H39].
  - destruct (word uw p) eqn:Ep, (word uw n) eqn:En; cbn [andb negb].
    + apply b_apostrophe; apply word_iff; assumption.
    + rewrite (Hw p Ep). cbn [andb]. apply b_single_close; [apply word_mark, word_iff, Ep| |].
      * intros H. apply word_iff in H. congruence.
      * intros [H _]. apply H, word_iff, Ep.
    + rewrite (Hw n En). apply b_single_open; [|apply word_mark, word_iff, En]. intros H. apply word_iff in H. congruence.
    + assert (Hp : ~ a_word uw p) by (intros H; apply word_iff in H; congruence).
      assert (Hn : ~ a_word uw n) by (intros H; apply word_iff in H; congruence).
      destruct (visible n) eqn:Vn; [apply b_single_open; [exact Hp|apply visible_iff, Vn]|].
      assert (Vn' : ~ a_mark n) by (intros H; apply visible_iff in H; congruence).
      destruct (visible p) eqn:Vp; cbn [andb].
      * apply b_single_close; [apply visible_iff, Vp|exact Hn|]. intros [_ H]. contradiction.
      * apply b_single_alone; [|exact Vn']. intros H. apply visible_iff in H. congruence.
  - destruct (N.eqb_spec c 34) as [->|H34]; [|apply b_other; assumption].
    destruct (word uw p) eqn:Ep, (word uw n) eqn:En; cbn [andb negb].
    + rewrite andb_false_r. apply b_double_inside; apply word_iff; assumption.
    + rewrite (Hw p Ep). cbn [andb]. apply b_double_close; [apply word_mark, word_iff, Ep| |].
      * intros H. apply word_iff in H. congruence.
      * intros [H _]. apply H, word_iff, Ep.
    + rewrite (Hw n En). apply b_double_open; [|apply word_mark, word_iff, En]. intros H. apply word_iff in H. congruence.
    + assert (Hp : ~ a_word uw p) by (intros H; apply word_iff in H; congruence).
      assert (Hn : ~ a_word uw n) by (intros H; apply word_iff in H; congruence).
      destruct (visible n) eqn:Vn; [apply b_double_open; [exact Hp|apply visible_iff, Vn]|].
      assert (Vn' : ~ a_mark n) by (intros H; apply visible_iff in H; congruence).
      destruct (visible p) eqn:Vp; cbn [andb].
      * apply b_double_close; [apply visible_iff, Vp|exact Hn|]. intros [_ H]. contradiction.
      * apply b_double_alone; [|exact Vn']. intros H. apply visible_iff in H. congruence.
Qed.
End Quotes.

Section Tree.
Context (uw : char -> bool) (Huw : marks_are_no_words uw).
Lemma typography_twice x : typography uw (typography uw x) = typography uw x.
Proof.
  unfold typography. rewrite (dashes_same (quotes uw (dashes x))).
  - apply quotes_twice, Huw.
  - apply quotes_set; [exact Huw|]. apply dashes_set.
Qed.
Fixpoint content_ind' (P : content -> Prop) (Ht : forall s, P (CText s)) (Hl : forall l, Forall P l -> P (CList l))
  (Hg : forall b c, P c -> P (CTag b c)) (Ho : P COther) (c : content) : P c :=
  match c with
  | CText s => Ht s
  | CList l => Hl l ((fix go (l : list content) : Forall P l :=
      match l with nil => Forall_nil P | c :: r => Forall_cons c (content_ind' P Ht Hl Hg Ho c) (go r) end) l)
  | CTag b c => Hg b c (content_ind' P Ht Hl Hg Ho c)
  | COther => Ho
  end.
Lemma process_texts c : texts (process uw c) = map (typography uw) (texts c).
Proof.
  induction c as [s|l IH|b c IH|] using content_ind'; cbn [process texts map]; [reflexivity| |destruct b; [exact IH|reflexivity]|reflexivity].
  induction IH as [|c l E _ IH']; [reflexivity|]. cbn [flat_map map]. rewrite E, map_app. f_equal. exact IH'.
Qed.
Lemma process_shape c : shape (process uw c) = shape c.
Proof.
  induction c as [s|l IH|b c IH|] using content_ind'; cbn [process shape]; [reflexivity| |destruct b; cbn [shape]; [f_equal; exact IH|reflexivity]|reflexivity].
  f_equal. rewrite map_map. apply map_ext_Forall, IH.
Qed.
Lemma process_twice c : process uw (process uw c) = process uw c.
Proof.
  induction c as [s|l IH|b c IH|] using content_ind'; cbn [process]; [f_equal; apply typography_twice| |destruct b; cbn [process]; [f_equal; exact IH|reflexivity]|reflexivity].
  f_equal. rewrite map_map. apply map_ext_Forall, IH.
Qed.
Lemma quotes_unchanged x : ~ In 39%N x -> ~ In 34%N x -> quotes uw x = x.
Proof.
  intros H1 H2. pose proof (quotes_similar uw Huw x) as F. induction F as [|c d x y Hc _ IH]; [reflexivity|].
  rewrite IH by (intros Hi; first [apply H1; right; exact Hi | apply H2; right; exact Hi]). f_equal.
  destruct Hc as [->|[[-> | ->] _]]; [reflexivity| |]; exfalso; [apply H1|apply H2]; left; reflexivity.
Qed.
End Tree.

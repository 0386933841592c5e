From Coq Require Import List Bool Arith NArith Lia.
From Verif.Base Require Import Str StrFacts PyText PyTextFacts.
From Verif.Model Require Import Attributes ListTag XhtmlList.
From Verif.Spec Require Import ListTag.
Import ListNotations.

Lemma span_max f (w r : str) : forallb f w = true -> (forall c r', r = c :: r' -> f c = false) -> span f (w ++ r) = (w, r).
Proof.
  intros H Hr. induction w as [|c w IH]; cbn [app span].
  - destruct r as [|c r]; auto. cbn [span]. now rewrite (Hr c r eq_refl).
  - cbn in H. apply andb_true_iff in H as [H1 H2]. now rewrite H1, IH.
Qed.
Lemma span_parts f (x : str) : exists w r, x = w ++ r /\ forallb f w = true /\ (forall c r', r = c :: r' -> f c = false) /\ span f x = (w, r).
Proof.
  induction x as [|c x (w & r & -> & Hw & Hr & E)]; [exists nil, nil; repeat split; auto; discriminate|].
  destruct (f c) eqn:F.
  - exists (c :: w), r. cbn [app span forallb]. rewrite F, E, Hw. auto.
  - exists nil, (c :: w ++ r). cbn [app span forallb]. rewrite F. repeat split; auto. intros c' r' X. injection X as <- _. exact F.
Qed.
Lemma bullet_iff c : is_bullet c = true <-> bullet c.
Proof. unfold is_bullet, bullet. rewrite orb_true_iff, !N.eqb_eq. reflexivity. Qed.
Lemma bullet_not_space c : bullet c -> rx_space c = false.
Proof. intros [-> | ->]; reflexivity. Qed.
Lemma bullet_not_nl c : bullet c -> c <> 10%N.
Proof. intros [-> | ->]; discriminate. Qed.
Lemma bullet_at_some x w r : bullet_at x = Some (w, r) <-> exists c, x = w ++ c :: r /\ spaces w /\ bullet c.
Proof.
  unfold bullet_at. split.
  - destruct (span_parts rx_space x) as (w' & r' & -> & Hw & Hr & ->). destruct r' as [|c r']; [discriminate|]. destruct (is_bullet c) eqn:B; [|discriminate].
    intros E. injection E as <- <-. exists c. split; auto. split; auto. now apply bullet_iff.
  - intros (c & -> & Hw & B). rewrite span_max; auto; [now rewrite (proj2 (bullet_iff c) B)|]. intros c' r' E. injection E as <- _. now apply bullet_not_space.
Qed.
Lemma bullet_at_none x : bullet_at x = None <-> ~ bullet_line x.
Proof.
  split.
  - intros E (w & c & t & -> & Hw & B). assert (X : bullet_at (w ++ c :: t) = Some (w, t)) by (apply bullet_at_some; eauto). congruence.
  - intros N. destruct (bullet_at x) as [[w r]|] eqn:E; auto. exfalso. apply N. apply bullet_at_some in E. destruct E as (c & E & Hw & B). exists w, c, r. auto.
Qed.

(** Lines *)
Definition nl : char := 10%N.
Definition unl (ls : list str) : str := flat_map (fun l => l ++ [nl]) ls.
Definition plain (l : str) : Prop := ~ In nl l.
Lemma nl_space : rx_space nl = true. Proof. reflexivity. Qed.
Lemma skipn_past {A} (l : list A) c y : skipn (S (length l)) (l ++ c :: y) = y.
Proof. induction l as [|a l IH]; [reflexivity|]. exact IH. Qed.
Lemma bullet_at_line l y : plain l -> bullet_at (l ++ nl :: y) =
  if forallb rx_space l then option_map (fun p => (l ++ nl :: fst p, snd p)) (bullet_at y)
  else option_map (fun p => (fst p, snd p ++ nl :: y)) (bullet_at l).
Proof.
  intros P. destruct (forallb rx_space l) eqn:Sp.
  - destruct (bullet_at y) as [[w r]|] eqn:E; cbn [option_map fst snd].
    + apply bullet_at_some in E. destruct E as (c & -> & Hw & B). apply bullet_at_some. exists c. split; [rewrite <- app_assoc; reflexivity|]. split; auto.
      unfold spaces. rewrite forallb_app. cbn [forallb]. rewrite Sp, Hw. reflexivity.
    + apply bullet_at_none in E. apply bullet_at_none. intros (w & c & t & Ew & Hw & B). apply E.
      assert (L : length l < length w).
      { destruct (Nat.lt_ge_cases (length l) (length w)) as [|G]; auto. exfalso.
        assert (X : nth_error (l ++ nl :: y) (length w) = Some c) by (rewrite Ew, nth_error_app2, Nat.sub_diag by lia; reflexivity).
        assert (Y : rx_space c = true); [|rewrite bullet_not_space in Y by auto; discriminate].
        destruct (Nat.eq_dec (length w) (length l)) as [Eq|Ne].
        - rewrite nth_error_app2, Eq, Nat.sub_diag in X by lia. cbn in X. injection X as <-. reflexivity.
        - rewrite nth_error_app1 in X by lia. rewrite forallb_forall in Sp. apply Sp. eapply nth_error_In; eauto. }
      exists (skipn (S (length l)) w), c, t. split; [|split; auto].
      * apply (f_equal (skipn (S (length l)))) in Ew. rewrite (skipn_app (S (length l)) w) in Ew. replace (S (length l) - length w) with 0 in Ew by lia. change (skipn 0 (c :: t)) with (c :: t) in Ew. rewrite <- Ew.
        now rewrite skipn_past.
      * unfold spaces. apply forallb_forall. intros z Hz. unfold spaces in Hw. rewrite forallb_forall in Hw. apply Hw. rewrite <- (firstn_skipn (S (length l)) w). apply in_or_app. now right.
  - destruct (bullet_at l) as [[w r]|] eqn:E; cbn [option_map fst snd].
    + apply bullet_at_some in E. destruct E as (c & -> & Hw & B). apply bullet_at_some. exists c. split; [rewrite <- app_assoc; reflexivity|auto].
    + apply bullet_at_none in E. apply bullet_at_none. intros (w & c & t & Ew & Hw & B). apply E.
      assert (G : length w < length l).
      { destruct (Nat.lt_ge_cases (length w) (length l)) as [|G]; auto. exfalso.
        assert (X : forallb rx_space l = true); [|congruence]. apply forallb_forall. intros z Hz. unfold spaces in Hw. rewrite forallb_forall in Hw. apply Hw.
        assert (F : firstn (length l) (l ++ nl :: y) = firstn (length l) (w ++ c :: t)) by now rewrite Ew.
        rewrite !firstn_app, Nat.sub_diag, firstn_all in F. replace (length l - length w) with 0 in F by lia. cbn [firstn] in F. rewrite !app_nil_r in F. rewrite F in Hz. rewrite <- (firstn_skipn (length l) w). apply in_or_app. now left. }
      exists w, c, (skipn (S (length w)) l). split; auto.
      assert (F : firstn (length l) (l ++ nl :: y) = firstn (length l) (w ++ c :: t)) by now rewrite Ew.
      rewrite !firstn_app, Nat.sub_diag, firstn_all in F. cbn [firstn] in F. rewrite app_nil_r in F.
      destruct (length l - length w) as [|k] eqn:Ek; [lia|]. cbn [firstn] in F. rewrite (firstn_all2 w) in F by lia.
      rewrite F at 1. f_equal. f_equal. rewrite F. now rewrite skipn_past.
Qed.

Definition put (b : str) (r : option (str * str * str)) : option (str * str * str) :=
  match r with Some (b', w, y) => Some (b ++ b', w, y) | None => None end.
Lemma put_put a b r : put a (put b r) = put (a ++ b) r.
Proof. destruct r as [[[? ?] ?]|]; cbn; auto. now rewrite app_assoc. Qed.
Lemma find_walk l y : plain l -> find_bullet false (l ++ nl :: y) = put (l ++ [nl]) (find_bullet true y).
Proof.
  induction l as [|c l IH]; intros P.
  - cbn [app find_bullet]. change (N.eqb nl 10) with true. destruct (find_bullet true y) as [[[b w] r]|]; reflexivity.
  - cbn [app find_bullet]. assert (N.eqb c 10 = false) as -> by (apply N.eqb_neq; intros ->; apply P; now left).
    rewrite IH by (intros C; apply P; now right). destruct (find_bullet true y) as [[[b w] r]|]; reflexivity.
Qed.
Lemma find_none l : plain l -> find_bullet false l = None.
Proof.
  induction l as [|c l IH]; intros P; auto. cbn [find_bullet]. assert (N.eqb c 10 = false) as -> by (apply N.eqb_neq; intros ->; apply P; now left).
  rewrite IH; auto. intros C; apply P; now right.
Qed.
Lemma find_true x : find_bullet true x = match bullet_at x with Some (w, r) => Some (nil, w, r) | None => find_bullet false x end.
Proof.
  destruct x as [|c x].
  - reflexivity.
  - cbn [find_bullet]. destruct (bullet_at (c :: x)) as [[w r]|]; reflexivity.
Qed.
Lemma layout_total ls : exists pre bs, layout ls pre bs.
Proof.
  induction ls as [|l ls (pre & bs & H)]; [exists [], []; constructor|].
  destruct (bullet_at l) as [[w r]|] eqn:E.
  - apply bullet_at_some in E. destruct E as (c & -> & Hw & B). exists [], ((w, r :: pre) :: bs). now constructor.
  - apply bullet_at_none in E. exists (l :: pre), bs. now constructor.
Qed.

Lemma layout_unique ls pre bs : layout ls pre bs -> forall pre' bs', layout ls pre' bs' -> pre' = pre /\ bs' = bs.
Proof.
  intros L. induction L as [|w c t r pre bs Hw B L IH|l r pre bs Nb L IH]; intros pre' bs' L'.
  - inversion L'; auto.
  - remember ((w ++ c :: t) :: r) as ls eqn:E. destruct L' as [|w' c' t' r' p' b' Hw' B' L'|l' r' p' b' Nb' L']; [discriminate| |].
    + injection E as E1 ->. destruct (IH _ _ L') as [-> ->]. assert (X : bullet_at (w ++ c :: t) = Some (w, t)) by (apply bullet_at_some; eauto).
      assert (Y : bullet_at (w ++ c :: t) = Some (w', t')) by (apply bullet_at_some; eauto). rewrite X in Y. injection Y as -> ->. auto.
    + injection E as -> ->. exfalso. apply Nb'. exists w, c, t. auto.
  - remember (l :: r) as ls eqn:E. destruct L' as [|w' c' t' r' p' b' Hw' B' L'|l' r' p' b' Nb' L']; [discriminate| |].
    + injection E as <- ->. exfalso. apply Nb. exists w', c', t'. auto.
    + injection E as -> ->. destruct (IH _ _ L') as [-> ->]. auto.
Qed.
Definition blank (l : str) : Prop := forallb rx_space l = true.
Definition joinl (ls : list str) : str := join [nl] ls.
Lemma joinl_cons l ls : ls <> [] -> joinl (l :: ls) = l ++ nl :: joinl ls.
Proof. intros N. unfold joinl. now rewrite join_cons. Qed.
Lemma unl_join ls r : ls <> [] -> joinl (ls ++ [r]) = unl ls ++ r.
Proof.
  intros _. induction ls as [|l ls IH]; [reflexivity|]. cbn [app]. rewrite joinl_cons by (destruct ls; discriminate). rewrite IH. unfold unl. cbn [flat_map]. rewrite <- !app_assoc. reflexivity.
Qed.

(** The first bullet of some lines *)
Lemma find_lines ls pre bs : layout ls pre bs -> ls <> [] -> (forall l, In l ls -> plain l) ->
  match bs with
  | [] => find_bullet true (joinl ls) = None
  | (w, t :: more) :: bs' => exists c p1 p2 post, ls = pre ++ (w ++ c :: t) :: post /\ pre = p1 ++ p2 /\ Forall blank p2 /\ (forall l p, p1 = p ++ [l] -> ~ blank l) /\
      layout post more bs' /\ (forall l, In l post -> plain l) /\ plain t /\ length post < length ls /\
      find_bullet true (joinl ls) = Some (unl p1, unl p2 ++ w, joinl (t :: post))
  | (w, []) :: _ => False
  end.
Proof.
  intros L. induction L as [|w c t r pre bs Hw B L IH|l r pre bs Nb L IH]; intros Ne Pl; [congruence| |].
  - exists c, [], [], r. split; auto. split; auto. split; [constructor|]. split; [intros l p E; destruct p; discriminate|]. split; auto. split; [intros l Hl; apply Pl; now right|].
    assert (Pt : plain t) by (intros C; apply (Pl (w ++ c :: t)); [now left|apply in_or_app; right; now right]).
    split; auto. split; [cbn; lia|]. rewrite find_true. cbn [unl flat_map app].
    assert (X : bullet_at (joinl ((w ++ c :: t) :: r)) = Some (w, joinl (t :: r))); [|now rewrite X].
    apply bullet_at_some. exists c. split; auto. destruct r; [reflexivity|]. rewrite !joinl_cons by discriminate. rewrite <- app_assoc. reflexivity.
  - assert (Pll : plain l) by (apply Pl; now left). assert (Plr : forall x, In x r -> plain x) by (intros; apply Pl; now right).
    destruct r as [|l2 r].
    + inversion L; subst. unfold joinl. cbn [join]. rewrite find_true, (proj2 (bullet_at_none l) Nb). now apply find_none.
    + specialize (IH ltac:(discriminate) Plr). rewrite joinl_cons by discriminate. set (x := joinl (l2 :: r)) in *.
      assert (F : find_bullet true (l ++ nl :: x) = match (if forallb rx_space l then bullet_at x else None) with Some (w, y) => Some ([], l ++ nl :: w, y) | None => put (l ++ [nl]) (find_bullet true x) end).
      { rewrite find_true, bullet_at_line, find_walk by auto. destruct (forallb rx_space l); [destruct (bullet_at x) as [[w y]|]; reflexivity|]. now rewrite (proj2 (bullet_at_none l) Nb). }
      destruct bs as [|[w [|t more]] bs'].
      * rewrite F, IH. assert (bullet_at x = None) as -> by (destruct (bullet_at x) as [[w y]|] eqn:E; auto; rewrite find_true, E in IH; discriminate). now destruct (forallb rx_space l).
      * exact IH.
      * destruct IH as (c & p1 & p2 & post & Els & -> & Hb & Hp & Lp & Ppost & Pt & Len & Ef).
        destruct (bullet_at x) as [[w' y]|] eqn:E.
        -- rewrite find_true, E in Ef. injection Ef as E1 E2 E3. assert (p1 = []) as -> by (destruct p1 as [|q p1]; auto; cbn in E1; destruct q; discriminate). cbn [app].
           destruct (forallb rx_space l) eqn:Sp.
           ++ exists c, [], (l :: p2), post. split; [cbn [app]; now rewrite Els|]. split; auto. split; [constructor; auto|]. split; [intros a p C; destruct p; discriminate|]. split; auto. split; auto. split; auto. split; [cbn in *; lia|].
              rewrite F, E2, E3. cbn [unl flat_map]. rewrite <- !app_assoc. reflexivity.
           ++ exists c, [l], p2, post. split; [cbn [app]; now rewrite Els|]. split; auto. split; auto. split; [intros a p C; destruct p as [|? [|? ?]]; try discriminate; injection C as <-; intros Bl; unfold blank in Bl; congruence|]. split; auto. split; auto. split; auto. split; [cbn in *; lia|].
              rewrite F. rewrite find_true, E. cbn [put unl flat_map]. rewrite !app_nil_r, E2, E3. reflexivity.
        -- exists c, (l :: p1), p2, post. split; [cbn [app]; now rewrite Els|]. split; auto. split; auto. split.
           ++ intros a p C. destruct p as [|q p]; cbn [app] in C; injection C as <- C; [|eauto]. subst p1. intros Bl.
              (* the first bullet would be found from here *)
              assert (bullet_at x <> None); [|congruence]. rewrite find_true, E in Ef. intros _. cbn [unl flat_map app] in Ef.
              destruct x as [|c0 x0]; [discriminate|]. cbn [find_bullet] in Ef. destruct (find_bullet _ x0) as [[[? ?] ?]|]; discriminate.
           ++ split; auto. split; auto. split; auto. split; [cbn in *; lia|]. rewrite F. assert ((if forallb rx_space l then None else None) = @None (str * str)) as -> by now destruct (forallb rx_space l).
              rewrite Ef. cbn [put unl flat_map]. reflexivity.
Qed.

Lemma strip_blank x u : forallb rx_space u = true -> strip (x ++ u) = strip x.
Proof.
  intros H. destruct (strip_p_decomp is_space x) as (p & q & E & Hp & Hq & Hs). unfold strip. rewrite E at 1. rewrite <- !app_assoc. apply strip_p_unique; auto. rewrite forallb_app, Hq. cbn.
  apply forallb_forall. intros c Hc. apply rx_space_space. rewrite forallb_forall in H. auto.
Qed.
Lemma unl_blank p : Forall blank p -> forallb rx_space (unl p) = true.
Proof. intros H. induction H as [|l p B H IH]; auto. cbn [unl flat_map]. fold (unl p). rewrite !forallb_app, IH. rewrite B. reflexivity. Qed.
Lemma strip_lines t p1 p2 : Forall blank p2 -> strip (joinl (t :: p1 ++ p2)) = strip (t ++ nl :: unl p1).
Proof.
  intros H. assert (X : forall p t, joinl (t :: p) ++ [nl] = t ++ nl :: unl p).
  { induction p as [|l p IH]; intros s; [reflexivity|]. rewrite joinl_cons by discriminate. rewrite <- app_assoc. cbn [app]. rewrite IH. cbn [unl flat_map]. rewrite <- app_assoc. reflexivity. }
  rewrite <- (strip_blank (joinl (t :: p1 ++ p2)) [nl] eq_refl), X. unfold unl. rewrite flat_map_app.
  rewrite app_comm_cons, app_assoc. apply strip_blank. now apply unl_blank.
Qed.

Lemma count_blank p w : (forall q, In q p -> ~ In 32%N q) -> count_c 32 (unl p ++ w) = count_c 32 w.
Proof.
  intros H. unfold count_c. rewrite filter_app, app_length. assert (filter (N.eqb 32) (unl p) = []) as ->; [|reflexivity].
  induction p as [|q p IH]; auto. cbn [unl flat_map]. rewrite !filter_app. fold (unl p). rewrite IH by (intros; apply H; now right). cbn. rewrite !app_nil_r.
  specialize (H q (or_introl eq_refl)). clear IH. induction q as [|c q IHq]; auto. cbn [filter]. destruct (N.eqb_spec 32 c) as [<-|]; [exfalso; apply H; now left|]. apply IHq. intros C. apply H. now right.
Qed.
Lemma items_lines n : forall t post more bs level, layout post more bs -> (forall l, In l post -> plain l) -> plain t -> length post < n ->
  map snd (items n level (joinl (t :: post))) = strip (joinl (t :: more)) :: map (fun b => strip (joinl (snd b))) bs /\
  exists rest, map fst (items n level (joinl (t :: post))) = level :: rest /\
    ((forall l, In l post -> blank l -> ~ In 32%N l) -> rest = map (fun b => count_c 32 (fst b)) bs).
Proof.
  induction n as [|n IH]; intros t post more bs level L Pl Pt Hn; [lia|]. cbn [items].
  destruct post as [|l post].
  - inversion L; subst. unfold joinl. cbn [join]. rewrite find_none by auto. split; [reflexivity|]. exists []. split; auto.
  - rewrite (joinl_cons t) by discriminate. rewrite find_walk by auto. pose proof (find_lines _ _ _ L ltac:(discriminate) Pl) as F.
    destruct bs as [|[w [|t' more']] bs].
    + rewrite F. cbn [put]. assert (more = l :: post).
      { clear -L. revert L. generalize (l :: post) as ls. clear. intros ls. remember [] as bs. intros L. revert Heqbs. induction L; intros E; try discriminate; auto. rewrite IHL by auto. reflexivity. }
      subst more. split; [rewrite (joinl_cons t) by discriminate; reflexivity|]. exists []. split; auto.
    + contradiction.
    + destruct F as (c & p1 & p2 & post' & Els & -> & Hb & Hp & Lp & Ppost & Pt' & Len & ->). cbn [put].
      destruct (IH t' post' more' bs (count_c 32 (unl p2 ++ w)) Lp Ppost Pt' ltac:(cbn in *; lia)) as [I1 (rest & I2 & I3)].
      split; [|exists (map fst (items n (count_c 32 (unl p2 ++ w)) (joinl (t' :: post')))); split; [reflexivity|]].
      * cbn [map snd]. rewrite I1. f_equal. rewrite strip_lines by auto. rewrite <- app_assoc. reflexivity.
      * intros Hs. rewrite I2. cbn [map fst].
        assert (C : count_c 32 (unl p2 ++ w) = count_c 32 w /\ forall l', In l' post' -> In l' (l :: post)).
        { assert (Inc : forall l', In l' (p1 ++ p2) \/ In l' post' -> In l' (l :: post)).
          { intros l' H. rewrite Els, in_app_iff. destruct H; [now left|right; now right]. }
          split; [|intros; apply Inc; auto].
          assert (Z : count_c 32 (unl p2) = 0). { clear - Hb Hs Inc. assert (Hq : forall q, In q p2 -> blank q /\ ~ In 32%N q) by (intros q Hq; split; [rewrite Forall_forall in Hb; auto|apply Hs; [apply Inc; left; apply in_or_app; now right|rewrite Forall_forall in Hb; auto]]).
            clear - Hq. induction p2 as [|q p2 IHp]; auto. cbn [unl flat_map]. unfold count_c in *. rewrite !filter_app, !app_length. fold (unl p2). rewrite IHp by (intros; apply Hq; now right).
            cbn. rewrite Nat.add_0_r. destruct (Hq q (or_introl eq_refl)) as [_ N]. clear - N. induction q as [|c q IHq]; auto. cbn [filter]. destruct (N.eqb_spec 32 c) as [<-|]; [exfalso; apply N; now left|]. apply IHq. intros C. apply N. now right. }
          unfold count_c in *. rewrite filter_app, app_length, Z. reflexivity. }
        destruct C as [C1 C2]. rewrite C1. f_equal. apply I3. intros l' Hl. apply Hs. auto.
Qed.

(** Line breaks in items *)
Definition stops (r : str) : Prop := forall c r', r = c :: r' -> rx_space c = false.
Lemma run_prefix (u r p q : str) : u ++ r = p ++ q -> spaces p -> stops r -> exists u2, u = p ++ u2 /\ q = u2 ++ r.
Proof.
  revert u. induction p as [|c p IH]; intros u E Hp Hr; [exists u; auto|].
  unfold spaces in Hp. cbn [forallb] in Hp. apply andb_true_iff in Hp as [Hc Hp]. destruct u as [|d u]; cbn [app] in E.
  - subst r. rewrite (Hr c (p ++ q) eq_refl) in Hc. discriminate.
  - injection E as -> E. destruct (IH u E Hp Hr) as (u2 & -> & ->). exists u2. auto.
Qed.
Lemma plus_greedy_In {A} (f : A -> bool) x p r : In (p, r) (plus_greedy f x) <-> x = p ++ r /\ p <> [] /\ forallb f p = true.
Proof.
  destruct x as [|c x]; cbn [plus_greedy].
  - split; [intros []|intros (E & N & _)]. destruct p; [congruence|discriminate].
  - split.
    + destruct (f c) eqn:F; [|intros []]. intros H. apply in_map_iff in H. destruct H as ([p' r'] & E & H). cbn in E. injection E as <- <-. apply star_greedy_In in H. destruct H as [-> H].
      split; auto. split; [discriminate|]. cbn. now rewrite F.
    + intros (E & N & H). destruct p as [|d p]; [congruence|]. cbn [app] in E. injection E as <- E. cbn in H. apply andb_true_iff in H as [Hc Hp]. rewrite Hc.
      apply in_map_iff. exists (p, r). split; auto. apply star_greedy_In. auto.
Qed.
Lemma plus_greedy_first {A} (f : A -> bool) p r : p <> [] -> forallb f p = true -> (forall c r', r = c :: r' -> f c = false) -> exists l, plus_greedy f (p ++ r) = (p, r) :: l.
Proof.
  intros N H Hr. destruct p as [|c p]; [congruence|]. cbn in H. apply andb_true_iff in H as [Hc Hp]. cbn [app plus_greedy]. rewrite Hc.
  destruct (star_greedy_first f p r Hp Hr) as [l ->]. cbn [map fst snd]. eauto.
Qed.
Fixpoint inner (u : str) : bool :=
  match u with nil => false | c :: r => (N.eqb c nl && match r with nil => false | _ => true end) || inner r end.
Lemma inner_iff u : inner u = true <-> exists a c b, u = a ++ nl :: c :: b.
Proof.
  induction u as [|c u IH]; cbn [inner].
  - split; [discriminate|intros (a & c & b & E); destruct a; discriminate].
  - rewrite orb_true_iff, andb_true_iff, N.eqb_eq, IH. split.
    + intros [[-> H]|(a & d & b & ->)]; [destruct u as [|d b]; [discriminate|]; exists [], d, b; reflexivity|exists (c :: a), d, b; reflexivity].
    + intros (a & d & b & E). destruct a as [|x a]; cbn [app] in E; injection E as -> E; [left; subst; auto|right; eauto].
Qed.
Lemma forallb_nl n : forallb (N.eqb 10) n = true -> spaces n.
Proof. intros H. unfold spaces. apply forallb_forall. intros c Hc. rewrite forallb_forall in H. specialize (H c Hc). apply N.eqb_eq in H. subst c. reflexivity. Qed.
Lemma multi_spec u r : spaces u -> stops r -> multi (u ++ r) = if inner u then Some (length u) else None.
Proof.
  intros Hu Hr. set (x := u ++ r).
  set (k2 := fun a : str * str => fun b : str * str => match plus_greedy rx_space (snd b) with c :: _ => Some (length (fst a) + length (fst b) + length (fst c)) | nil => None end).
  set (k := fun a : str * str => first_match (k2 a) (plus_greedy (N.eqb 10) (snd a))).
  change (first_match k (star_greedy rx_space x) = if inner u then Some (length u) else None).
  assert (Q : forall p n y, x = p ++ n ++ y -> spaces p -> n <> [] -> forallb (N.eqb 10) n = true ->
    exists u2, u = p ++ n ++ u2 /\ y = u2 ++ r /\ k2 (p, n ++ y) (n, y) = (if match u2 with nil => true | _ => false end then None else Some (length u))).
  { intros p n y E Hp Hn Hb. rewrite app_assoc in E. destruct (run_prefix u r (p ++ n) y E) as (u2 & E1 & E2); [|exact Hr|].
    - unfold spaces. rewrite forallb_app. rewrite Hp. apply forallb_nl in Hb. exact Hb.
    - exists u2. rewrite app_assoc. split; auto. split; auto. unfold k2. cbn [fst snd]. subst y. destruct u2 as [|c u2].
      + cbn [app]. destruct (plus_greedy rx_space r) as [|[q s] l] eqn:G; auto. exfalso.
        assert (I : In (q, s) (plus_greedy rx_space r)) by (rewrite G; now left). apply plus_greedy_In in I. destruct I as (Er & Nq & Fq). destruct q as [|c q]; [congruence|].
        cbn in Fq. apply andb_true_iff in Fq as [Fc _]. rewrite (Hr c (q ++ s) Er) in Fc. discriminate.
      + destruct (plus_greedy_first rx_space (c :: u2) r) as [l G]; [discriminate| |exact Hr|].
        * subst u. unfold spaces in Hu. rewrite !forallb_app in Hu. apply andb_true_iff in Hu as [_ Hu]. exact Hu.
        * rewrite G. cbn [fst]. subst u. rewrite !app_length. reflexivity. }
  destruct (first_match k (star_greedy rx_space x)) as [m|] eqn:F.
  - apply first_match_Some in F. destruct F as (l1 & [p q] & l2 & El & Ek & _).
    assert (I : In (p, q) (star_greedy rx_space x)) by (rewrite El; apply in_or_app; right; now left). apply star_greedy_In in I. destruct I as [E Hp].
    unfold k in Ek. cbn [snd] in Ek. apply first_match_Some in Ek. destruct Ek as (m1 & [n y] & m2 & Em & Ek & _).
    assert (I : In (n, y) (plus_greedy (N.eqb 10) q)) by (rewrite Em; apply in_or_app; right; now left). apply plus_greedy_In in I. destruct I as (-> & Nn & Hn).
    destruct (Q p n y E Hp Nn Hn) as (u2 & Eu & Ey & Ek'). assert (Ek2 : k2 (p, n ++ y) (n, y) = Some m) by exact Ek. rewrite Ek' in Ek2. destruct u2 as [|c u2]; [discriminate|].
    assert (inner u = true) as ->; [|congruence]. apply inner_iff. destruct n as [|d n] using rev_ind; [congruence|]. clear IHn.
    rewrite forallb_app in Hn. apply andb_true_iff in Hn as [_ Hn]. cbn [forallb] in Hn. rewrite andb_true_r in Hn. apply N.eqb_eq in Hn. subst d.
    exists (p ++ n), c, u2. rewrite Eu, <- !app_assoc. reflexivity.
  - destruct (inner u) eqn:I; auto. exfalso. apply inner_iff in I. destruct I as (a & c & b & Eu).
    assert (Ha : spaces a) by (unfold spaces in *; rewrite Eu, forallb_app in Hu; apply andb_true_iff in Hu as [? _]; auto).
    assert (Ex : x = a ++ [nl] ++ (c :: b) ++ r) by (unfold x; rewrite Eu, <- app_assoc; reflexivity).
    destruct (Q a [nl] ((c :: b) ++ r) Ex Ha ltac:(discriminate) eq_refl) as (u2 & E1 & E2 & E3). assert (u2 = c :: b) as -> by (apply app_inv_tail in E2; auto).
    rewrite first_match_None in F. specialize (F (a, [nl] ++ (c :: b) ++ r)). unfold k in F. rewrite first_match_None in F.
    assert (Z : k2 (a, [nl] ++ (c :: b) ++ r) ([nl], (c :: b) ++ r) = None); [|rewrite E3 in Z; discriminate].
    apply F; [apply star_greedy_In; auto|]. cbn [snd]. apply plus_greedy_In. split; auto. split; [discriminate|reflexivity].
Qed.
Lemma clean_skip s x : clean_from (length s) (s ++ x) = clean_from 0 x.
Proof. induction s as [|c s IH]; [reflexivity|]. cbn [app length clean_from]. exact IH. Qed.
Lemma clean_run u r : spaces u -> stops r -> clean (u ++ r) = (if inner u then [32%N] else u) ++ clean r.
Proof.
  intros Hu Hr. unfold clean. destruct (inner u) eqn:I.
  - destruct u as [|c u]; [discriminate|]. pose proof (multi_spec (c :: u) r Hu Hr) as M. rewrite I in M. cbn [app clean_from] in *. rewrite M. cbn [length]. replace (S (length u) - 1) with (length u) by lia. now rewrite clean_skip.
  - induction u as [|c u IH]; [reflexivity|]. pose proof (multi_spec (c :: u) r Hu Hr) as M. rewrite I in M. cbn [app clean_from] in *. rewrite M. f_equal. apply IH.
    + unfold spaces in *. cbn in Hu. now apply andb_true_iff in Hu as [_ Hu].
    + cbn [inner] in I. apply orb_false_iff in I as [_ I]. exact I.
Qed.
Lemma clean_char c r : rx_space c = false -> clean (c :: r) = c :: clean r.
Proof.
  intros H. unfold clean. assert (S : stops (c :: r)) by (intros d r' E; injection E as <- _; auto). pose proof (multi_spec [] (c :: r) eq_refl S) as M. cbn [app inner] in M. cbn [clean_from]. now rewrite M.
Qed.
Lemma runs (P : str -> Prop) : P [] -> (forall u, spaces u -> u <> [] -> P u) ->
  (forall u c r, spaces u -> rx_space c = false -> P r -> P (u ++ c :: r)) -> forall x, P x.
Proof.
  intros P0 P1 P2 x. remember (length x) as n eqn:En. revert x En. induction n as [n IH] using lt_wf_ind. intros x ->.
  destruct (span_parts rx_space x) as (u & r & -> & Hu & Hr & _). destruct r as [|c r].
  - rewrite app_nil_r. destruct u; auto. apply P1; auto. discriminate.
  - apply P2; auto; [eapply Hr; eauto|]. apply (IH (length r)); auto. rewrite app_length. cbn. lia.
Qed.
Lemma stops_cons c r : rx_space c = false -> stops (c :: r).
Proof. intros H d r' E. injection E as <- _. exact H. Qed.
Lemma stops_nil : stops [].
Proof. intros d r' E. discriminate. Qed.
Lemma clean_step u c r : spaces u -> rx_space c = false -> clean (u ++ c :: r) = (if inner u then [32%N] else u) ++ c :: clean r.
Proof. intros Hu Hc. rewrite clean_run, clean_char; auto. now apply stops_cons. Qed.
Lemma clean_spaces u : spaces u -> clean u = if inner u then [32%N] else u.
Proof. intros Hu. rewrite <- (app_nil_r u) at 1. rewrite clean_run by (auto; apply stops_nil). unfold clean. cbn [clean_from]. now rewrite app_nil_r. Qed.
Lemma clean_app x c y : rx_space c = false -> clean (x ++ c :: y) = clean x ++ c :: clean y.
Proof.
  intros Hc. revert x. apply (runs (fun x => clean (x ++ c :: y) = clean x ++ c :: clean y)).
  - cbn [app]. now rewrite clean_char.
  - intros u Hu _. rewrite clean_step by auto. rewrite (clean_spaces u Hu). reflexivity.
  - intros u d r Hu Hd IH. rewrite <- app_assoc. cbn [app]. rewrite (clean_step u d (r ++ c :: y)), (clean_step u d r) by auto.
    rewrite IH. rewrite <- (app_assoc _ (d :: clean r)). reflexivity.
Qed.

Lemma words_run u r cur : spaces u -> u <> [] -> words_from cur (u ++ r) = match cur with nil => words_from nil r | _ => cur :: words_from nil r end.
Proof.
  intros Hu N. assert (X : forall u, spaces u -> words_from [] (u ++ r) = words_from [] r).
  { clear. intros u. induction u as [|c u IH]; intros H; auto. unfold spaces in H. cbn in H. apply andb_true_iff in H as [Hc H]. cbn [app words_from]. rewrite Hc. now apply IH. }
  destruct u as [|c u]; [congruence|]. unfold spaces in Hu. cbn in Hu. apply andb_true_iff in Hu as [Hc Hu]. cbn [app words_from]. rewrite Hc, X by exact Hu. reflexivity.
Qed.
Lemma inner_nonnil u : inner u = true -> u <> [].
Proof. intros H ->. discriminate. Qed.
Lemma clean_words x : forall cur, words_from cur (clean x) = words_from cur x.
Proof.
  revert x. apply (runs (fun x => forall cur, words_from cur (clean x) = words_from cur x)); [reflexivity| |].
  - intros u Hu N cur. rewrite clean_spaces by auto. destruct (inner u); auto. pose proof (words_run u [] cur Hu N) as A. pose proof (words_run [32%N] [] cur eq_refl ltac:(discriminate)) as B. rewrite app_nil_r in A. rewrite A. exact B.
  - intros u c r Hu Hc IH cur. rewrite clean_step by auto. destruct (inner u) eqn:I.
    + rewrite (words_run u _ cur Hu (inner_nonnil u I)), (words_run [32%N] _ cur eq_refl ltac:(discriminate)). cbn [words_from]. rewrite Hc, IH. reflexivity.
    + destruct u as [|d u].
      * cbn [app words_from]. rewrite Hc. apply IH.
      * rewrite (words_run (d :: u) (c :: r) cur Hu ltac:(discriminate)), (words_run (d :: u) (c :: clean r) cur Hu ltac:(discriminate)). cbn [words_from]. rewrite Hc, IH. reflexivity.
Qed.
Lemma app_split {A} (a b c d : list A) x : a ++ b = c ++ x :: d -> (exists e, a = c ++ x :: e /\ d = e ++ b) \/ (exists e, c = a ++ e /\ b = e ++ x :: d).
Proof.
  revert c. induction a as [|h a IH]; intros c E; cbn [app] in *; [right; eauto|].
  destruct c as [|h' c]; cbn [app] in E; injection E as <- E; [left; exists a; auto|]. destruct (IH c E) as [(e & -> & ->)|(e & -> & ->)]; [left|right]; exists e; auto.
Qed.
Lemma clean_flush x : flush_lines (clean x).
Proof.
  revert x. apply (runs (fun x => flush_lines (clean x))).
  - intros a c b E. destruct a; discriminate.
  - intros u Hu N a c b E. rewrite clean_spaces in E by auto. destruct (inner u) eqn:I; [destruct a as [|? [|? ?]]; discriminate|]. exfalso. assert (inner u = true); [|congruence]. apply inner_iff. eauto.
  - intros u c r Hu Hc IH a d b E. rewrite clean_step in E by auto. apply app_split in E. destruct E as [(e & E1 & E2)|(e & -> & E2)].
    + destruct (inner u) eqn:I; [destruct a as [|? [|? ?]]; discriminate|]. destruct e as [|d' e]; cbn [app] in E2; injection E2 as -> E2; auto.
      exfalso. assert (inner u = true); [|congruence]. apply inner_iff. exists a, d', e. exact E1.
    + destruct e as [|c' e]; cbn [app] in E2; injection E2 as E3 E2; [subst c; discriminate|]. eapply IH; eauto.
Qed.
Lemma clean_id x : flush_lines x -> clean x = x.
Proof.
  revert x. apply (runs (fun x => flush_lines x -> clean x = x)); [reflexivity| |].
  - intros u Hu N F. rewrite clean_spaces by auto. destruct (inner u) eqn:I; auto. apply inner_iff in I. destruct I as (a & c & b & ->).
    pose proof (F a c b eq_refl) as X. unfold spaces in Hu. rewrite forallb_forall in Hu. rewrite Hu in X; [discriminate|]. apply in_or_app. right. right. now left.
  - intros u c r Hu Hc IH F. rewrite clean_step by auto. destruct (inner u) eqn:I.
    + apply inner_iff in I. destruct I as (a & d & b & ->). rewrite <- app_assoc in F. cbn [app] in F. pose proof (F a d _ eq_refl) as X.
      unfold spaces in Hu. rewrite forallb_forall in Hu. rewrite Hu in X; [discriminate|]. apply in_or_app. right. right. now left.
    + rewrite IH; auto. intros a d b E. apply (F (u ++ c :: a) d b). rewrite E, <- app_assoc. reflexivity.
Qed.

(** Levels *)
Lemma fold_min l : forall a, (fold_left Nat.min l a = a \/ In (fold_left Nat.min l a) l) /\ fold_left Nat.min l a <= a /\ (forall x, In x l -> fold_left Nat.min l a <= x).
Proof.
  induction l as [|y l IH]; intros a; cbn [fold_left]; [split; [now left|split; [lia|intros x []]]|].
  destruct (IH (Nat.min a y)) as (A & B & C). split; [|split].
  - destruct A as [A|A]; [|now right; right]. rewrite A. destruct (Nat.min_spec a y) as [[_ ->]|[_ ->]]; [now left|right; now left].
  - lia.
  - intros x [->|H]; [lia|auto].
Qed.
Lemma min_level_spec l : l <> [] -> In (min_level l) (map fst l) /\ forall x, In x (map fst l) -> min_level l <= x.
Proof.
  intros N. unfold min_level. destruct l as [|p l]; [congruence|]. cbn [map]. destruct (fold_min (map fst l) (fst p)) as (A & B & C).
  split; [destruct A as [->|A]; [now left|now right]|]. intros x [<-|H]; auto.
Qed.
Lemma ceil2 a : 2 * ceil_div a 2 = a \/ 2 * ceil_div a 2 = S a.
Proof. unfold ceil_div. cbn [Nat.sub]. pose proof (Nat.div_mod (a + 1) 2 ltac:(lia)) as D. pose proof (Nat.mod_upper_bound (a + 1) 2 ltac:(lia)) as M. lia. Qed.

From Coq Require Import List Bool Arith Lia NArith.
From Verif.Base Require Import Str StrFacts Result PurePath PyText PyTextFacts ListFacts.
From Verif.Model Require Import Paths Scanner.
From Verif.Spec Require Import Scanner.
Import ListNotations.

(** ** Regular expressions *)
Lemma prefix_split {A} (a b c d : list A) : a ++ b = c ++ d -> length a <= length c -> exists z, c = a ++ z /\ b = z ++ d.
Proof.
  revert c. induction a as [|x a IH]; intros c E Hl; [exists c; auto|].
  destruct c as [|y c]; [cbn in Hl; lia|]. injection E as <- E. destruct (IH c E) as (z & -> & ->); [cbn in Hl; lia|]. exists z. auto.
Qed.
Lemma one_result {A B} (f : A -> option B) l b :
  (forall x, In x l -> f x = None \/ f x = Some b) -> (exists x, In x l /\ f x = Some b) -> first_match f l = Some b.
Proof.
  induction l as [|a l IH]; intros H (x & Hx & E); [destruct Hx|]. cbn [first_match].
  destruct (H a (or_introl eq_refl)) as [Ea|Ea]; rewrite Ea; [|reflexivity].
  destruct Hx as [->|Hx]; [congruence|]. apply IH; [intros y Hy; apply H; right; exact Hy|]. exists x. auto.
Qed.
Lemma first_match_In {A B} (f : A -> option B) l b : first_match f l = Some b -> exists x, In x l /\ f x = Some b.
Proof.
  intros H. apply first_match_Some in H as (l1 & x & l2 & -> & E & _). exists x. split; [|exact E].
  apply in_or_app. right. left. reflexivity.
Qed.
Lemma plus_greedy_In {A} (f : A -> bool) x p r :
  In (p, r) (plus_greedy f x) <-> x = p ++ r /\ p <> [] /\ forallb f p = true.
Proof.
  destruct x as [|c x]; cbn [plus_greedy].
  - split; [intros []|]. intros (E & Hn & _). destruct p; [congruence|discriminate].
  - split.
    + intros H. destruct (f c) eqn:Ec; [|destruct H]. apply in_map_iff in H as ([p' r'] & [= <- <-] & H).
      apply star_greedy_In in H as [-> Hp]. split; [reflexivity|]. split; [discriminate|]. cbn [forallb]. rewrite Ec. exact Hp.
    + intros (E & Hn & Hp). destruct p as [|d p]; [congruence|]. injection E as <- ->. cbn [forallb] in Hp.
      apply andb_true_iff in Hp as [-> Hp]. apply in_map_iff. exists (p, r). split; [reflexivity|]. apply star_greedy_In. auto.
Qed.
Lemma plus_greedy_first {A} (f : A -> bool) p r : p <> [] -> forallb f p = true ->
  (forall c r', r = c :: r' -> f c = false) -> exists l, plus_greedy f (p ++ r) = (p, r) :: l.
Proof.
  intros Hn Hp Hr. destruct p as [|c p]; [congruence|]. cbn [forallb] in Hp. apply andb_true_iff in Hp as [Hc Hp].
  cbn [app plus_greedy]. rewrite Hc. destruct (star_greedy_first f p r Hp Hr) as [l ->]. eexists. reflexivity.
Qed.

Lemma quote_iff c : quote c = true <-> quotes c.
Proof. unfold quote, quotes. rewrite orb_true_iff, !N.eqb_eq. tauto. Qed.
Lemma opening_iff c : opening c = true <-> starts c.
Proof. unfold opening, starts. rewrite !orb_true_iff, quote_iff, N.eqb_eq. tauto. Qed.
Lemma starts_not c : ~ starts c -> opening c = false.
Proof. intros H. destruct (opening c) eqn:E; [|reflexivity]. exfalso. apply H, opening_iff, E. Qed.
Lemma quotes_not c : ~ quotes c -> quote c = false.
Proof. intros H. destruct (quote c) eqn:E; [|reflexivity]. exfalso. apply H, quote_iff, E. Qed.

(** ** Values *)
Section Value.
Context (g v r : str) (q : char).
Hypothesis (Hg : forall c, In c g -> starts c) (Hn : g <> []) (Hs : exists c d, v = c :: d /\ ~ starts c)
  (Hv : forall c, In c v -> ~ quotes c /\ c <> 10%N) (Hq : quotes q).
Lemma lazy_value :
  first_match (fun p : str * str => match snd p with c :: r => if quote c then Some (fst p, r) else None | nil => None end)
    (star_lazy (fun c => negb (N.eqb c 10)) (v ++ q :: r)) = Some (v, r).
Proof.
  apply first_match_star_lazy.
  - apply forallb_forall. intros c Hc. apply negb_true_iff, N.eqb_neq, Hv, Hc.
  - intros a b E Hb. destruct b as [|c b]; [congruence|]. cbn [snd app]. rewrite quotes_not; [reflexivity|].
    apply Hv. rewrite E. apply in_or_app. right. left. reflexivity.
  - cbn [snd fst]. rewrite (proj2 (quote_iff q) Hq). reflexivity.
Qed.
Lemma match_value_eq : match_value (g ++ v ++ q :: r) = Some (v, r).
Proof.
  unfold match_value.
  assert (Hh : forall c r', v ++ q :: r = c :: r' -> opening c = false).
  { destruct Hs as (c & d & -> & Hc). intros c' r' [= <- _]. apply starts_not, Hc. }
  assert (Run : forall a b, g = a ++ b -> b <> [] ->
    first_match (fun p : str * str => first_match (fun p : str * str => match snd p with c :: r => if quote c then Some (fst p, r) else None | nil => None end)
      (star_lazy (fun c => negb (N.eqb c 10)) (snd p))) (plus_greedy opening (b ++ v ++ q :: r)) = Some (v, r)).
  { intros a b E Hb. destruct (plus_greedy_first opening b (v ++ q :: r) Hb) as [l El]; [|exact Hh|].
    - apply forallb_forall. intros c Hc. apply opening_iff, Hg. rewrite E. apply in_or_app. right. exact Hc.
    - rewrite El. cbn [first_match snd]. rewrite lazy_value. reflexivity. }
  apply one_result.
  - intros [p y] Hi. apply star_greedy_In in Hi as [E Hp]. cbn [snd].
    destruct (le_lt_dec (length p) (length g)) as [Hl|Hl].
    + destruct (prefix_split _ _ _ _ (eq_sym E) Hl) as (b & Eg & Ey).
      subst y. destruct b as [|c b]; [|right; apply (Run p (c :: b) Eg); discriminate]. left.
      cbn [app]. destruct Hs as (c & d & Ev & Hc). rewrite Ev. cbn [app plus_greedy]. rewrite (starts_not c Hc). reflexivity.
    + exfalso. destruct Hs as (c & d & Ev & Hc). apply Hc. right. right.
      rewrite forallb_forall in Hp. apply Hp.
      assert (Ep : nth_error p (length g) = Some c).
      { assert (X : nth_error (g ++ v ++ q :: r) (length g) = Some c).
        { rewrite nth_error_app2, Nat.sub_diag by lia. rewrite Ev. reflexivity. }
        rewrite E in X. rewrite nth_error_app1 in X by lia. exact X. }
      exact (nth_error_In _ _ Ep).
  - exists ([], g ++ v ++ q :: r). split; [apply star_greedy_In; split; reflexivity|]. cbn [snd]. apply (Run [] g eq_refl Hn).
Qed.
End Value.

Lemma value_quotes x : forall acc g r,
  first_match (fun p : str * str => match snd p with c :: r => if quote c then Some (acc ++ fst p, r) else None | nil => None end)
    (star_lazy (fun c => negb (N.eqb c 10)) x) = Some (g, r) ->
  exists v q, g = acc ++ v /\ x = v ++ q :: r /\ quotes q /\ forall c, In c v -> ~ quotes c /\ c <> 10%N.
Proof.
  induction x as [|c x IH]; intros acc g r H; cbn [star_lazy first_match snd fst] in H; [discriminate H|].
  destruct (quote c) eqn:Eq.
  - injection H as <- <-. exists [], c. split; [reflexivity|]. split; [reflexivity|]. split; [apply quote_iff, Eq|]. intros d [].
  - destruct (N.eqb_spec c 10) as [->|Hc]; cbn [negb] in H; [discriminate H|].
    assert (E : forall l, first_match (fun p : str * str => match snd p with c :: r => if quote c then Some (acc ++ fst p, r) else None | nil => None end)
        (map (fun p : str * str => (c :: fst p, snd p)) l) =
      first_match (fun p : str * str => match snd p with d :: r => if quote d then Some ((acc ++ [c]) ++ fst p, r) else None | nil => None end) l).
    { induction l as [|[a b] l IHl]; [reflexivity|]. cbn [map first_match snd fst]. rewrite IHl.
      rewrite <- app_assoc. reflexivity. }
    rewrite E in H. destruct (IH _ _ _ H) as (v & q & -> & -> & Hq & Hv). exists (c :: v), q.
    split; [rewrite <- app_assoc; reflexivity|]. split; [reflexivity|]. split; [exact Hq|].
    intros d [<-|Hd]; [|exact (Hv d Hd)]. split; [|exact Hc]. intros Hd. apply quote_iff in Hd. congruence.
Qed.
Lemma match_value_sound x v r : match_value x = Some (v, r) ->
  exists g q, x = g ++ v ++ q :: r /\ g <> [] /\ (forall c, In c g -> starts c) /\ quotes q /\ forall c, In c v -> ~ quotes c /\ c <> 10%N.
Proof.
  unfold match_value. intros H. apply first_match_In in H as ([p y] & Hp & H). apply star_greedy_In in Hp as [-> Hp]. cbn [snd] in H.
  apply first_match_In in H as ([p' y'] & Hp' & H). apply plus_greedy_In in Hp' as (-> & Hn & Hp'). cbn [snd] in H.
  destruct (value_quotes y' [] v r H) as (v' & q & E & -> & Hq & Hv). cbn [app] in E. subst v'.
  exists (p ++ p'), q. split; [rewrite <- app_assoc; reflexivity|]. split; [destruct p; [exact Hn|discriminate]|]. split; [|split; assumption].
  rewrite forallb_forall in Hp, Hp'. intros c Hc. apply in_app_or in Hc as [Hc|Hc]; [right; right; apply Hp, Hc|apply opening_iff, Hp', Hc].
Qed.

(** ** Elements *)
Definition attr_name (k : kind) : str := match k with KLink => lit "href" | KImage => lit "src" end.
Lemma attr_eq k : attr_name k ++ lit "=" = attribute k.
Proof. destruct k; reflexivity. Qed.
Lemma match_tag_sound k x v r : match_tag (tag k) (attr_name k) x = Some (v, r) ->
  exists b g q, x = lit "<" ++ tag k ++ b ++ attribute k ++ g ++ v ++ q :: r /\
    (exists c d, b = c :: d /\ rx_space c = true) /\ (exists c d, b = c ++ [d] /\ rx_space d = true) /\ ~ In 62%N b /\
    g <> [] /\ (forall c, In c g -> starts c) /\ quotes q /\ forall c, In c v -> ~ quotes c /\ c <> 10%N.
Proof.
  assert (At : forall y, match_attr (attr_name k) y = Some (v, r) -> exists g q, y = attribute k ++ g ++ v ++ q :: r /\
            g <> [] /\ (forall c, In c g -> starts c) /\ quotes q /\ forall c, In c v -> ~ quotes c /\ c <> 10%N).
  { intros y H. unfold match_attr in H. rewrite attr_eq in H. destruct (eat (attribute k) y) as [z|] eqn:E; [|discriminate H].
    apply eat_iff in E. subst y. destruct (match_value_sound z v r H) as (g & q & -> & Hr). exists g, q. split; [reflexivity|exact Hr]. }
  assert (Ns : forall s, forallb rx_space s = true -> ~ In 62%N s).
  { intros s Hs Hi. rewrite forallb_forall in Hs. discriminate (Hs _ Hi). }
  assert (Hd : forall s, s <> [] -> forallb rx_space s = true -> exists c d, s = c :: d /\ rx_space c = true).
  { intros [|c s] Hn Hs; [congruence|]. exists c, s. split; [reflexivity|]. cbn [forallb] in Hs. apply andb_true_iff in Hs. tauto. }
  assert (Tl : forall s, s <> [] -> forallb rx_space s = true -> exists c d, s = c ++ [d] /\ rx_space d = true).
  { intros s Hn Hs. destruct (exists_last Hn) as (c & d & ->). exists c, d. split; [reflexivity|].
    rewrite forallb_forall in Hs. apply Hs, in_or_app. right. left. reflexivity. }
  unfold match_tag. intros H. destruct (eat (lit "<" ++ tag k) x) as [y|] eqn:E; [|discriminate H]. apply eat_iff in E. subst x.
  apply first_match_In in H as ([p z] & Hp & H). apply plus_greedy_In in Hp as (-> & Hn & Hp). cbn [snd] in H.
  destruct (first_match _ (star_lazy _ z)) as [[v' r']|] eqn:E.
  - injection H as -> ->. apply first_match_In in E as ([a w] & Ha & H). apply star_lazy_In in Ha as [-> Ha]. cbn [snd] in H.
    apply first_match_In in H as ([s w'] & Hs & H). apply plus_greedy_In in Hs as (-> & Hsn & Hs). cbn [snd] in H.
    destruct (At w' H) as (g & q & -> & Hg). exists (p ++ a ++ s), g, q.
    split; [rewrite <- !app_assoc; reflexivity|]. split; [|split; [|split; [|exact Hg]]].
    + destruct (Hd p Hn Hp) as (c & d & -> & Hc). exists c, (d ++ a ++ s). auto.
    + destruct (Tl s Hsn Hs) as (c & d & -> & Hc). exists (p ++ a ++ c), d. rewrite <- !app_assoc. auto.
    + intros Hi. apply in_app_or in Hi as [Hi|Hi]; [exact (Ns p Hp Hi)|]. apply in_app_or in Hi as [Hi|Hi]; [|exact (Ns s Hs Hi)].
      rewrite forallb_forall in Ha. discriminate (Ha _ Hi).
  - destruct (At z H) as (g & q & -> & Hg). exists p, g, q. split; [rewrite <- !app_assoc; reflexivity|].
    split; [exact (Hd p Hn Hp)|]. split; [exact (Tl p Hn Hp)|]. split; [exact (Ns p Hp)|exact Hg].
Qed.

(** The attribute is at one place only. *)
Lemma attribute_once (k : kind) (b t more u w : str) :
  (exists c d, b = c ++ [d] /\ rx_space d = true) -> contains b (attribute k) = false ->
  contains t (attribute k) = false -> ~ In 62%N t -> ~ In 62%N u ->
  b ++ attribute k ++ t ++ 62%N :: more = u ++ attribute k ++ w -> u = b.
Proof.
  intros (c & d & Eb & Hd) Hb Ht Ht6 Hu E.
  assert (Ha : exists h m, attribute k = h :: m /\ ~ In h m /\ ~ In 62%N (attribute k) /\ (forall x, In x (attribute k) -> rx_space x = false)).
  { destruct k; (eexists _, _; split; [reflexivity|]); cbn; (split; [|split]); intuition (subst; try discriminate; try reflexivity). }
  destruct Ha as (h & m & Ea & Hh & Ha6 & Has).
  destruct (le_lt_dec (length u) (length b)) as [Hl|Hl].
  - symmetry in E. destruct (prefix_split _ _ _ _ E Hl) as (z & -> & E2). destruct z as [|y z]; [rewrite app_nil_r; reflexivity|].
    exfalso. destruct (le_lt_dec (length (attribute k)) (length (y :: z))) as [Hz|Hz].
    + destruct (prefix_split _ _ _ _ E2 Hz) as (z' & Ez & _). rewrite Ez in Hb.
      assert (contains (u ++ attribute k ++ z') (attribute k) = true); [|congruence]. apply contains_iff. eexists _, _. reflexivity.
    + destruct (prefix_split _ _ _ _ (eq_sym E2)) as (z' & Ez & _); [lia|].
      assert (Hi : In d (attribute k)).
      { rewrite Ez. apply in_or_app. left. assert (Hdz : exists a, y :: z = a ++ [d]).
        { destruct (exists_last (l := y :: z)) as (a & e & Eae); [discriminate|]. rewrite Eae in Eb. rewrite app_assoc in Eb.
          apply app_inj_tail in Eb as [_ <-]. exists a. exact Eae. }
        destruct Hdz as [a ->]. apply in_or_app. right. left. reflexivity. }
      rewrite (Has d Hi) in Hd. discriminate.
  - exfalso. destruct (prefix_split _ _ _ _ E) as (z & -> & E2); [lia|]. rewrite app_length in Hl.
    destruct (le_lt_dec (length (attribute k)) (length z)) as [Hz|Hz].
    + destruct (prefix_split _ _ _ _ E2 Hz) as (z' & -> & E3).
      assert (Hno : ~ In 62%N (z' ++ attribute k)).
      { intros Hi. apply in_app_or in Hi as [Hi|Hi]; [|exact (Ha6 Hi)]. apply Hu. apply in_or_app. right. apply in_or_app. right. exact Hi. }
      assert (Hlt : length (z' ++ attribute k) <= length t).
      { destruct (le_lt_dec (length (z' ++ attribute k)) (length t)) as [|Hgt]; [assumption|]. exfalso. apply Hno.
        rewrite app_assoc in E3. destruct (prefix_split _ _ _ _ E3) as (z2 & Ez2 & E4); [lia|].
        rewrite Ez2. destruct z2 as [|y z2]; [rewrite Ez2, app_nil_r in Hgt; lia|]. injection E4 as <- _.
        apply in_or_app. right. left. reflexivity. }
      rewrite app_assoc in E3. symmetry in E3. destruct (prefix_split _ _ _ _ E3 Hlt) as (z2 & -> & _).
      assert (contains ((z' ++ attribute k) ++ z2) (attribute k) = true); [|congruence].
      apply contains_iff. exists z', z2. rewrite <- app_assoc. reflexivity.
    + symmetry in E2. destruct (prefix_split _ _ _ _ E2) as (z2 & Ez2 & E3); [lia|].
      destruct z as [|y z]; [cbn in Hl; lia|]. rewrite Ea in Ez2, E3. injection Ez2 as <- Em.
      destruct z2 as [|y2 z2].
      * rewrite app_nil_r in Em. subst z. rewrite Ea in Hz. cbn in Hz. lia.
      * injection E3 as <- _. apply Hh. rewrite Em. apply in_or_app. right. left. reflexivity.
Qed.

Section Element.
Context (e : element) (more : str).
Hypothesis (Hwf : well_formed e).
Let k := kind_of e.
Let T := attribute k ++ gap e ++ value e ++ [last_quote e] ++ after e ++ lit ">" ++ more.
Let R := (value e, after e ++ lit ">" ++ more).
Lemma attr_at w u : before e ++ T = u ++ w -> ~ In 62%N u ->
  match_attr (attr_name k) w = None \/ match_attr (attr_name k) w = Some R.
Proof.
  destruct Hwf as (Hb1 & Hb2 & Hg & Hgs & Hv & Hvc & Hq & Hno & Hcb & Hct). intros E Hu.
  unfold match_attr. rewrite attr_eq. destruct (eat (attribute k) w) as [r|] eqn:Ew; [|left; reflexivity]. right.
  apply eat_iff in Ew. subst w.
  assert (H6 : ~ In 62%N (before e ++ gap e ++ value e ++ after e)) by (intros Hi; destruct (Hno _ Hi) as [H6 _]; apply H6; reflexivity).
  assert (Eu : u = before e).
  { apply (attribute_once k (before e) (gap e ++ value e ++ [last_quote e] ++ after e) more u r); try assumption.
    - intros Hi. apply in_app_or in Hi as [Hi|Hi]; [apply H6; apply in_or_app; right; apply in_or_app; left; exact Hi|].
      apply in_app_or in Hi as [Hi|Hi]; [apply H6; apply in_or_app; right; apply in_or_app; right; apply in_or_app; left; exact Hi|].
      apply in_app_or in Hi as [Hi|Hi].
      + destruct Hi as [Hi|[]]. rewrite Hi in Hq. destruct Hq; discriminate.
      + apply H6. apply in_or_app; right; apply in_or_app; right; apply in_or_app; right; exact Hi.
    - rewrite <- E. unfold T. rewrite <- !app_assoc. reflexivity. }
  subst u. apply app_inv_head in E. unfold T in E. apply app_inv_head in E. subst r.
  exact (match_value_eq (gap e) (value e) _ (last_quote e) Hgs Hg Hv Hvc Hq).
Qed.
Lemma attr_here : match_attr (attr_name k) T = Some R.
Proof.
  destruct Hwf as (Hb1 & Hb2 & Hg & Hgs & Hv & Hvc & Hq & Hno & Hcb & Hct).
  unfold match_attr, T. rewrite attr_eq. rewrite (proj2 (eat_iff (attribute k) _ _) eq_refl).
  exact (match_value_eq (gap e) (value e) _ (last_quote e) Hgs Hg Hv Hvc Hq).
Qed.
Lemma match_element : match_tag (tag k) (attr_name k) (element_text e ++ more) = Some R.
Proof.
  unfold match_tag. assert (E : element_text e ++ more = (lit "<" ++ tag k) ++ before e ++ T).
  { unfold element_text, T. fold k. rewrite <- !app_assoc. reflexivity. }
  rewrite E, (proj2 (eat_iff (lit "<" ++ tag k) _ _) eq_refl). clear E.
  assert (Hb6 : ~ In 62%N (before e)).
  { destruct Hwf as (_ & _ & _ & _ & _ & _ & _ & Hno & _). intros Hi. destruct (Hno 62%N) as [H6 _]; [|apply H6; reflexivity]. apply in_or_app. left. exact Hi. }
  assert (Ns : forall s, forallb rx_space s = true -> ~ In 62%N s).
  { intros s Hs Hi. rewrite forallb_forall in Hs. discriminate (Hs _ Hi). }
  set (inner := fun y : str => first_match (fun q : str * str => first_match (fun q : str * str => match_attr (attr_name k) (snd q)) (plus_greedy rx_space (snd q)))
              (star_lazy (fun c => negb (N.eqb c 62)) y)).
  assert (In2 : forall p a z, before e ++ T = p ++ a ++ z -> ~ In 62%N p -> forallb (fun c => negb (N.eqb c 62)) a = true ->
            forall q : str * str, In q (plus_greedy rx_space z) -> match_attr (attr_name k) (snd q) = None \/ match_attr (attr_name k) (snd q) = Some R).
  { intros p a z E Hp Ha [s w] Hi. apply plus_greedy_In in Hi as (-> & _ & Hs). cbn [snd]. apply (attr_at w (p ++ a ++ s)).
    - rewrite E, <- !app_assoc. reflexivity.
    - intros Hi. apply in_app_or in Hi as [Hi|Hi]; [exact (Hp Hi)|]. apply in_app_or in Hi as [Hi|Hi]; [|exact (Ns s Hs Hi)].
      rewrite forallb_forall in Ha. discriminate (Ha _ Hi). }
  assert (In1 : forall p y, before e ++ T = p ++ y -> ~ In 62%N p -> inner y = None \/ inner y = Some R).
  { intros p y E Hp. unfold inner. destruct (first_match _ (star_lazy _ y)) as [v|] eqn:Ef; [|left; reflexivity]. right.
    apply first_match_In in Ef as ([a z] & Ha & Ef). apply star_lazy_In in Ha as [-> Ha]. cbn [snd] in Ef.
    apply first_match_In in Ef as (q & Hi & Ef). destruct (In2 p a z E Hp Ha q Hi); congruence. }
  apply one_result.
  - intros [p y] Hi. apply plus_greedy_In in Hi as (E & _ & Hp). cbn [snd]. change (first_match _ (star_lazy _ y)) with (inner y).
    destruct (In1 p y E (Ns p Hp)) as [-> | ->]; [|right; reflexivity]. apply (attr_at y p E (Ns p Hp)).
  - destruct Hwf as ((c & d & Eb & Hc) & (c' & d' & Eb' & Hd') & _).
    exists ([c], d ++ T). split.
    { apply plus_greedy_In. split; [rewrite Eb; reflexivity|]. split; [discriminate|]. cbn [forallb]. rewrite Hc. reflexivity. }
    cbn [snd]. change (first_match _ (star_lazy _ (d ++ T))) with (inner (d ++ T)).
    assert (E : before e ++ T = [c] ++ d ++ T) by (rewrite Eb; reflexivity).
    assert (Hc6 : ~ In 62%N [c]). { apply Ns. cbn [forallb]. rewrite Hc. reflexivity. }
    destruct (In1 [c] (d ++ T) E Hc6) as [En| ->]; [|reflexivity].
    destruct c' as [|x c'].
    + rewrite Eb in Eb'. injection Eb' as -> ->. cbn [app] in En |- *. rewrite En. exact attr_here.
    + exfalso. rewrite Eb in Eb'. injection Eb' as <- ->. unfold inner in En. rewrite first_match_None in En.
      assert (Ha : forallb (fun c => negb (N.eqb c 62)) c' = true).
      { apply forallb_forall. intros x Hx. apply negb_true_iff, N.eqb_neq. intros ->. apply Hb6. rewrite Eb. right. apply in_or_app. left. exact Hx. }
      specialize (En (c', [d'] ++ T)). cbn [snd] in En.
      assert (Hin : In (c', [d'] ++ T) (star_lazy (fun c => negb (N.eqb c 62)) ((c' ++ [d']) ++ T))).
      { apply star_lazy_In. split; [rewrite <- app_assoc; reflexivity|exact Ha]. }
      specialize (En Hin). rewrite first_match_None in En. specialize (En ([d'], T)). cbn [snd] in En.
      assert (Hin2 : In ([d'], T) (plus_greedy rx_space ([d'] ++ T))).
      { apply plus_greedy_In. split; [reflexivity|]. split; [discriminate|]. cbn [forallb]. rewrite Hd'. reflexivity. }
      specialize (En Hin2). rewrite attr_here in En. discriminate En.
Qed.
End Element.

(** ** All elements of a text *)
Lemma find_iter_fuel m : (forall x g r, m x = Some (g, r) -> length r < length x) ->
  forall n n' x, length x < n -> length x < n' -> find_iter m n x = find_iter m n' x.
Proof.
  intros Hm. induction n as [|n IH]; intros n' x H H'; [lia|]. destruct n' as [|n']; [lia|]. cbn [find_iter].
  destruct (m x) as [[g r]|] eqn:E.
  - specialize (Hm _ _ _ E). f_equal. apply IH; lia.
  - destruct x as [|c x]; [reflexivity|]. cbn [length] in H, H'. apply IH; lia.
Qed.
Definition all_matches (m : str -> option (str * str)) (x : str) : list str := find_iter m (S (length x)) x.
Lemma all_matches_text m (Hm : forall x g r, m x = Some (g, r) -> length r < length x) t y :
  (forall a b, t = a ++ b -> b <> [] -> m (b ++ y) = None) -> all_matches m (t ++ y) = all_matches m y.
Proof.
  induction t as [|c t IH]; intros H; [reflexivity|].
  rewrite <- IH.
  - unfold all_matches. cbn [app length]. remember (S (length (t ++ y))) as n. cbn [find_iter].
    pose proof (H [] (c :: t) eq_refl ltac:(discriminate)) as H0. cbn [app] in H0. rewrite H0. reflexivity.
  - intros a b -> Hb. apply (H (c :: a) b); [reflexivity|exact Hb].
Qed.
Lemma all_matches_hit m (Hm : forall x g r, m x = Some (g, r) -> length r < length x) x g r :
  m x = Some (g, r) -> all_matches m x = g :: all_matches m r.
Proof.
  intros E. unfold all_matches at 1. cbn [find_iter]. rewrite E. f_equal.
  pose proof (Hm _ _ _ E). apply find_iter_fuel; [assumption|lia|lia].
Qed.
Lemma find_iter_In m (Hs : forall x g r, m x = Some (g, r) -> exists a, x = a ++ r) :
  forall n x g, In g (find_iter m n x) -> exists a y r, x = a ++ y /\ m y = Some (g, r).
Proof.
  induction n as [|n IH]; intros x g H; [destruct H|]. cbn [find_iter] in H. destruct (m x) as [[g' r]|] eqn:E.
  - destruct H as [<-|H]; [exists [], x, r; auto|]. destruct (IH _ _ H) as (a & y & r' & Er & E').
    destruct (Hs _ _ _ E) as [b ->]. exists (b ++ a), y, r'. rewrite Er, app_assoc. auto.
  - destruct x as [|c x]; [destruct H|]. destruct (IH _ _ H) as (a & y & r & -> & E'). exists (c :: a), y, r. auto.
Qed.

Definition matcher (k : kind) : str -> option (str * str) := match_tag (tag k) (attr_name k).
Lemma matcher_suffix k x g r : matcher k x = Some (g, r) -> exists a, x = a ++ r.
Proof.
  intros H. destruct (match_tag_sound k x g r H) as (b & gp & q & -> & _).
  exists (lit "<" ++ tag k ++ b ++ attribute k ++ gp ++ g ++ [q]). rewrite <- !app_assoc. reflexivity.
Qed.
Lemma matcher_shrinks k x g r : matcher k x = Some (g, r) -> length r < length x.
Proof.
  intros H. destruct (match_tag_sound k x g r H) as (b & gp & q & -> & _). rewrite !app_length. cbn [length]. lia.
Qed.
Definition start (k : kind) : str := lit "<" ++ tag k.
(** Text without the start of an element, before another element, after one, or at the end *)
Lemma text_skipped k t y : contains t (start k) = false ->
  (y = [] \/ (exists r, y = 60%N :: r) \/ (exists s, t = s ++ [62%N])) ->
  all_matches (matcher k) (t ++ y) = all_matches (matcher k) y.
Proof.
  intros Hc Hy. apply all_matches_text; [apply matcher_shrinks|]. intros a b E Hb.
  destruct (matcher k (b ++ y)) as [[g r]|] eqn:Em; [|reflexivity]. exfalso.
  destruct (match_tag_sound k _ g r Em) as (bb & gp & q & Ex & _). rewrite app_assoc in Ex. fold (start k) in Ex.
  set (z := bb ++ attribute k ++ gp ++ g ++ q :: r) in Ex.
  destruct (le_lt_dec (length (start k)) (length b)) as [Hl|Hl].
  - destruct (prefix_split _ _ _ _ (eq_sym Ex) Hl) as (w & -> & _).
    assert (contains t (start k) = true); [|congruence]. apply contains_iff. exists a, w. exact E.
  - destruct (prefix_split _ _ _ _ Ex) as (w & Ew & Ey); [lia|].
    destruct Hy as [-> | [[r' ->] | [s Es]]].
    + destruct w as [|c w]; [rewrite Ew, app_nil_r in Hl; lia|discriminate Ey].
    + destruct w as [|c w]; [rewrite Ew, app_nil_r in Hl; lia|]. injection Ey as <- _.
      destruct b as [|c0 b]; [congruence|]. destruct k; cbn in Ew; injection Ew as <- Ew;
        repeat (destruct b as [|? b]; [discriminate Ew|injection Ew as <- Ew]); destruct b; discriminate Ew.
    + rewrite Es in E. destruct (exists_last Hb) as (b' & d & ->). rewrite app_assoc in E. apply app_inj_tail in E as [_ <-].
      assert (Hi : In 62%N (start k)). { rewrite Ew. apply in_or_app. left. apply in_or_app. right. left. reflexivity. }
      destruct k; cbn in Hi; intuition discriminate.
Qed.
Lemma no_start k x c : ~ In 60%N x -> contains (x ++ [c]) (start k) = false.
Proof.
  intros H. destruct (contains (x ++ [c]) (start k)) eqn:E; [|reflexivity]. exfalso.
  apply contains_iff in E as (a & b & E). assert (Hs : exists d m, start k = 60%N :: m ++ [d]).
  { destruct k; [exists 107%N, (lit "lin")|exists 103%N, (lit "im")]; reflexivity. }
  destruct Hs as (d & m & Es). rewrite Es in E. destruct (exists_last (l := (m ++ [d]) ++ b)) as (u & v & Eu); [destruct m; discriminate|].
  assert (E2 : x ++ [c] = (a ++ 60%N :: u) ++ [v]). { rewrite E, <- app_assoc. cbn [app]. rewrite Eu. reflexivity. }
  apply app_inj_tail in E2 as [-> _]. apply H. apply in_or_app. right. left. reflexivity.
Qed.
Lemma element_body e : well_formed e ->
  ~ In 60%N (tag (kind_of e) ++ before e ++ attribute (kind_of e) ++ gap e ++ value e ++ [last_quote e] ++ after e).
Proof.
  intros (_ & _ & _ & _ & _ & _ & Hq & Hno & _) Hi.
  assert (H6 : ~ In 60%N (before e ++ gap e ++ value e ++ after e)) by (intros Hj; destruct (Hno _ Hj) as [_ H6]; apply H6; reflexivity).
  apply in_app_or in Hi as [Hi|Hi]; [destruct (kind_of e); cbn in Hi; intuition discriminate|].
  apply in_app_or in Hi as [Hi|Hi]; [apply H6; apply in_or_app; left; exact Hi|].
  apply in_app_or in Hi as [Hi|Hi]; [destruct (kind_of e); cbn in Hi; intuition discriminate|].
  apply in_app_or in Hi as [Hi|Hi]; [apply H6; apply in_or_app; right; apply in_or_app; left; exact Hi|].
  apply in_app_or in Hi as [Hi|Hi]; [apply H6; apply in_or_app; right; apply in_or_app; right; apply in_or_app; left; exact Hi|].
  apply in_app_or in Hi as [Hi|Hi].
  - destruct Hi as [Hi|[]]. rewrite Hi in Hq. destruct Hq; discriminate.
  - apply H6; apply in_or_app; right; apply in_or_app; right; apply in_or_app; right; exact Hi.
Qed.
Lemma other_element k e y : well_formed e -> kind_of e <> k -> all_matches (matcher k) (element_text e ++ y) = all_matches (matcher k) y.
Proof.
  intros Hwf Hk. pose proof (element_body e Hwf) as Hb. apply text_skipped.
  - unfold element_text. remember (tag (kind_of e) ++ before e ++ attribute (kind_of e) ++ gap e ++ value e ++ [last_quote e] ++ after e) as body eqn:Eb.
    assert (E : lit "<" ++ tag (kind_of e) ++ before e ++ attribute (kind_of e) ++ gap e ++ value e ++ [last_quote e] ++ after e ++ lit ">"
                = 60%N :: body ++ [62%N]).
    { rewrite Eb, <- !app_assoc. reflexivity. }
    rewrite E. destruct (contains (60%N :: body ++ [62%N]) (start k)) eqn:Ec; [|reflexivity]. exfalso.
    apply contains_iff in Ec as (a & b & Ec). destruct a as [|c a].
    + cbn [app] in Ec. rewrite Eb in Ec. destruct (kind_of e), k; try congruence; discriminate Ec.
    + injection Ec as _ Ec. assert (contains (body ++ [62%N]) (start k) = true); [|rewrite no_start in *; [discriminate|exact Hb]].
      apply contains_iff. exists a, b. exact Ec.
  - right. right. unfold element_text. eexists. rewrite !app_assoc. reflexivity.
Qed.
Lemma own_element e y : well_formed e ->
  all_matches (matcher (kind_of e)) (element_text e ++ y) = value e :: all_matches (matcher (kind_of e)) y.
Proof.
  intros Hwf. rewrite (all_matches_hit _ (matcher_shrinks (kind_of e)) _ _ _ (match_element e y Hwf)). f_equal.
  rewrite app_assoc. apply text_skipped.
  - apply no_start. intros Hi. apply (element_body e Hwf). repeat (apply in_or_app; right). exact Hi.
  - right. right. eexists. reflexivity.
Qed.
Lemma all_matches_html k l t : (forall x, In x l -> well_formed (snd x) /\ no_element (fst x)) -> no_element t ->
  all_matches (matcher k) (html l t) = references k l.
Proof.
  assert (Ns : forall x, no_element x -> contains x (start k) = false) by (intros x [H1 H2]; destruct k; assumption).
  intros Hl Ht. unfold html. induction l as [|[s e] l IH].
  - cbn [flat_map app]. rewrite <- (app_nil_r t). rewrite text_skipped; [reflexivity|apply Ns, Ht|left; reflexivity].
  - cbn [flat_map fst snd]. rewrite <- !app_assoc. destruct (Hl (s, e) (or_introl eq_refl)) as [Hwf Hs]. cbn [fst snd] in Hwf, Hs.
    rewrite text_skipped; [|apply Ns, Hs|right; left; eexists; reflexivity].
    assert (Er : references k ((s, e) :: l) = (match k, kind_of e with KLink, KLink | KImage, KImage => [value e] | _, _ => [] end) ++ references k l)
      by reflexivity.
    rewrite Er. rewrite <- IH by (intros x Hx; apply Hl; right; exact Hx).
    destruct k, (kind_of e) eqn:Ek.
    + rewrite <- Ek. apply own_element, Hwf.
    + apply other_element; [exact Hwf|congruence].
    + apply other_element; [exact Hwf|congruence].
    + rewrite <- Ek. apply own_element, Hwf.
Qed.

(** ** Files *)
Lemma split_c_snoc {A} `{EqDec A} (c : A) z : split_c c (z ++ [c]) = split_c c z ++ [[]].
Proof.
  induction z as [|d z IH]; cbn [app split_c].
  - rewrite eqb_refl. reflexivity.
  - rewrite IH. destruct (eqb c d); [reflexivity|]. pose proof (split_c_nonnil c z) as Hn. destruct (split_c c z); [congruence|reflexivity].
Qed.
Lemma real_parts_strip (x : str) : filter real_part (split_c 47%N (strip_c 47%N x)) = filter real_part (split_c 47%N x).
Proof.
  assert (Hl : forall s (y : str), forallb (N.eqb 47) s = true -> filter real_part (split_c 47%N (s ++ y)) = filter real_part (split_c 47%N y)).
  { intros s y H. induction s as [|c s IH]; [reflexivity|]. cbn [forallb] in H. apply andb_true_iff in H as [Hc Hs].
    apply N.eqb_eq in Hc. subst c. rewrite <- (IH Hs). change (47%N :: s) with ([] ++ 47%N :: s).
    rewrite <- app_assoc. cbn [app]. pose proof (split_c_app 47%N [] (s ++ y)) as E. cbn [app] in E. rewrite E by (intros []). reflexivity. }
  assert (Hr : forall s (y : str), forallb (N.eqb 47) s = true -> filter real_part (split_c 47%N (y ++ s)) = filter real_part (split_c 47%N y)).
  { intros s. induction s as [|c s IH] using rev_ind; intros y H; [rewrite app_nil_r; reflexivity|].
    rewrite forallb_app in H. apply andb_true_iff in H as [Hs Hc]. cbn [forallb] in Hc. apply andb_true_iff in Hc as [Hc _].
    apply N.eqb_eq in Hc. subst c. rewrite <- (IH y Hs), app_assoc. rewrite split_c_snoc, filter_app. cbn. apply app_nil_r. }
  destruct (strip_p_decomp (N.eqb 47) x) as (p & q & E & Hp & Hq & _). unfold strip_c.
  rewrite E at 2. rewrite Hl by assumption. rewrite Hr by assumption. reflexivity.
Qed.
Lemma strip_relative (x : str) : startswith (strip_c 47%N x) (lit "/") = false.
Proof.
  destruct (startswith (strip_c 47%N x) (lit "/")) eqn:E; [|reflexivity]. exfalso. apply startswith_iff in E as [r E].
  destruct (strip_p_decomp (N.eqb 47) x) as (p & q & _ & _ & _ & Hs). unfold strip_c in E. rewrite E in Hs.
  destruct Hs as [Hs _]. specialize (Hs 47%N r eq_refl). discriminate Hs.
Qed.
Lemma of_stub x : of_str (strip_c 47%N x) = mkpath false (names_of x).
Proof. unfold of_str, names_of. rewrite strip_relative, real_parts_strip. reflexivity. Qed.

Section Files.
Context (file : path -> option str).
Definition exists_file (p : path) : Prop := exists c, file p = Some c.
Lemma is_file_iff p : is_file file p = true <-> exists_file p.
Proof. unfold is_file, exists_file. destruct (file p); split; [eauto|reflexivity|discriminate|intros [c E]; discriminate]. Qed.
Lemma is_file_not p : is_file file p = false <-> ~ exists_file p.
Proof. rewrite <- is_file_iff. destruct (is_file file p); intuition congruence. Qed.
Lemma find_stub_eq b root d stub x : find_stub file b root (mkpath false d) stub = Ok x <-> refers exists_file root d stub x.
Proof.
  unfold find_stub. rewrite of_stub. unfold path_join at 1. cbn [absolute parts source_path bind].
  unfold source_path. cbn [absolute bind filter full path_join parts].
  unfold full, path_join. cbn [absolute parts]. fold (below root (d ++ names_of stub)). fold (below root (names_of stub)).
  destruct (is_file file (below root (d ++ names_of stub))) eqn:E1.
  - apply is_file_iff in E1. split; [intros [= <-]; constructor; exact E1|]. intros H. inversion H; [reflexivity|contradiction].
  - apply is_file_not in E1. destruct (is_file file (below root (names_of stub))) eqn:E2.
    + apply is_file_iff in E2. split; [intros [= <-]; constructor 2; assumption|]. intros H. inversion H; [contradiction|reflexivity].
    + apply is_file_not in E2. split; [destruct b; discriminate|]. intros H. inversion H; contradiction.
Qed.
Lemma find_stub_none b root d stub : (forall x, ~ refers exists_file root d stub x) ->
  find_stub file b root (mkpath false d) stub = Raise (if b then FileNotFoundError else IndexError).
Proof.
  intros H. destruct (find_stub file b root (mkpath false d) stub) as [x|e] eqn:E; [exfalso; apply (H x), (find_stub_eq b), E|].
  revert E. unfold find_stub. rewrite of_stub. unfold path_join at 1. cbn [absolute parts source_path bind].
  unfold source_path. cbn [absolute bind]. destruct (filter _ _); [|discriminate]. destruct b; congruence.
Qed.
Lemma find_stubs_eq b root d stubs l : find_stubs file b root (mkpath false d) stubs = Ok l <-> Forall2 (refers exists_file root d) stubs l.
Proof.
  revert l. induction stubs as [|s r IH]; intros l; cbn [find_stubs].
  - split; [intros [= <-]; constructor|]. intros H. inversion H. reflexivity.
  - split.
    + intros H. destruct (find_stub _ _ _ _ s) as [x|] eqn:E; [|discriminate H]. cbn [bind] in H.
      destruct (find_stubs _ _ _ _ r) as [y|] eqn:E2; [|discriminate H]. injection H as <-.
      constructor; [apply (find_stub_eq b), E|apply IH; reflexivity].
    + intros H. inversion H as [|s' x r' y Hx Hr]; subst. apply (find_stub_eq b) in Hx. rewrite Hx. cbn [bind].
      apply IH in Hr. rewrite Hr. reflexivity.
Qed.
Lemma find_stubs_error b root d stubs e : find_stubs file b root (mkpath false d) stubs = Raise e ->
  e = (if b then FileNotFoundError else IndexError) /\ exists s, In s stubs /\ forall x, ~ refers exists_file root d s x.
Proof.
  induction stubs as [|s r IH]; [discriminate|]. cbn [find_stubs]. destruct (find_stub _ _ _ _ s) as [x|e'] eqn:E; cbn [bind].
  - destruct (find_stubs _ _ _ _ r) as [y|e'] eqn:E2; [discriminate|]. cbn [bind]. intros [= <-].
    destruct (IH eq_refl) as (-> & s' & Hs & Hx). split; [reflexivity|]. exists s'. split; [right; exact Hs|exact Hx].
  - intros [= <-]. assert (Hn : forall x, ~ refers exists_file root d s x).
    { intros x Hx. apply (find_stub_eq b) in Hx. congruence. }
    rewrite (find_stub_none b root d s Hn) in E. injection E as <-. split; [reflexivity|]. exists s. split; [left; reflexivity|exact Hn].
Qed.
End Files.

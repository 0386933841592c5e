(** Lemmas about paragraphs. *)
From Coq Require Import List Bool Arith NArith Lia.
From Verif.Base Require Import Str StrFacts ListFacts PyText PyTextFacts.
From Verif.Model Require Import Attributes Paragraphs.
From Verif.Spec Require Import Paragraphs.
From Verif.Proof Require Import Attributes.
Import ListNotations.

Ltac appn := repeat (first [rewrite <- app_assoc | progress cbn [app]]).

Definition spaces (u : str) : Prop := Forall (fun c => rx_space c = true) u.
Lemma has_break_iff s : has_break s <-> exists a u b, s = a ++ 10%N :: u ++ 10%N :: b /\ spaces u.
Proof. reflexivity. Qed.

(** ** The regular expression *)
Lemma span_spaces u r : spaces u -> (forall c r', r = c :: r' -> rx_space c = false) -> span rx_space (u ++ r) = (u, r).
Proof. intros H1 H2. apply span_app; [apply forallb_forall, Forall_forall; exact H1|exact H2]. Qed.
Lemma match_para_some x r : match_para x = Some r <->
  exists u, x = u ++ r /\ spaces u /\ has_break u /\ (forall c r', r = c :: r' -> rx_space c = false).
Proof.
  assert (Snd : forall r', match_para x = Some r' ->
     exists u, x = u ++ r' /\ spaces u /\ has_break u /\ (forall c r0, r' = c :: r0 -> rx_space c = false)).
  { intros r' H. unfold match_para in H. apply first_match_Some in H as (l1 & [a r1] & l2 & E & H & _).
    assert (Ha : In (a, r1) (star_greedy rx_space x)) by (rewrite E; apply in_elt).
    apply star_greedy_In in Ha as [-> Ha]. cbn [snd] in H.
    destruct (eat [10%N] r1) as [r2|] eqn:E1; [|discriminate]. apply eat_iff in E1 as ->.
    apply first_match_Some in H as (l3 & [b r3] & l4 & E2 & H & _).
    assert (Hb : In (b, r3) (star_greedy rx_space r2)) by (rewrite E2; apply in_elt).
    apply star_greedy_In in Hb as [-> Hb]. cbn [snd] in H.
    destruct (eat [10%N] r3) as [r4|] eqn:E3; [|discriminate]. apply eat_iff in E3 as ->. apply (f_equal (fun o => match o with Some z => z | None => [] end)) in H.
    destruct (span_decomp rx_space r4) as (D1 & D2 & D3). destruct (span rx_space r4) as [p q]. cbn [fst snd] in *. subst r4.
    assert (Eq : span (N.eqb 10) q = ([], q)).
    { destruct q as [|c q]; [reflexivity|]. cbn [span]. destruct (N.eqb_spec 10 c) as [<-|]; [|reflexivity].
      specialize (D3 10%N q eq_refl). discriminate. }
    rewrite Eq in H. cbn [snd] in H. subst r'.
    rewrite forallb_forall in Ha, Hb, D2.
    exists (a ++ 10%N :: b ++ 10%N :: p). split; [|split; [|split; [|exact D3]]].
    - rewrite <- app_assoc. cbn [app]. rewrite <- app_assoc. reflexivity.
    - apply Forall_forall. intros c Hc. rewrite in_app_iff in Hc. cbn [In] in Hc. rewrite in_app_iff in Hc. cbn [In] in Hc.
      destruct Hc as [Hc|[<-|[Hc|[<-|Hc]]]]; auto.
    - apply has_break_iff. exists a, b, p. split; [reflexivity|]. apply Forall_forall. auto. }
  split; [apply Snd|]. intros (u & -> & Hu & Hb & Hr).
  destruct (match_para (u ++ r)) as [r'|] eqn:E.
  - destruct (Snd r' eq_refl) as (u' & E' & Hu' & _ & Hr').
    pose proof (span_spaces u r Hu Hr) as S1. rewrite E', (span_spaces u' r' Hu' Hr') in S1. injection S1 as -> ->. reflexivity.
  - exfalso. apply has_break_iff in Hb as (a & v & b & -> & Hv). unfold match_para in E. rewrite first_match_None in E.
    assert (Ha : spaces a) by (apply Forall_app in Hu; apply Hu).
    specialize (E (a, 10%N :: v ++ 10%N :: b ++ r)). cbn [snd] in E.
    assert (In1 : In (a, 10%N :: v ++ 10%N :: b ++ r) (star_greedy rx_space ((a ++ 10%N :: v ++ 10%N :: b) ++ r))).
    { apply star_greedy_In. split; [|apply forallb_forall, Forall_forall; exact Ha].
      rewrite <- app_assoc. cbn [app]. rewrite <- app_assoc. reflexivity. }
    specialize (E In1). replace (eat [10%N] (10%N :: v ++ 10%N :: b ++ r)) with (Some (v ++ 10%N :: b ++ r)) in E by (symmetry; apply eat_iff; reflexivity).
    rewrite first_match_None in E. specialize (E (v, 10%N :: b ++ r)). cbn [snd] in E.
    assert (In2 : In (v, 10%N :: b ++ r) (star_greedy rx_space (v ++ 10%N :: b ++ r))).
    { apply star_greedy_In. split; [reflexivity|apply forallb_forall, Forall_forall; exact Hv]. }
    specialize (E In2). replace (eat [10%N] (10%N :: b ++ r)) with (Some (b ++ r)) in E by (symmetry; apply eat_iff; reflexivity).
    discriminate.
Qed.
Lemma match_para_none x : match_para x = None <->
  (forall u r, x = u ++ r -> spaces u -> ~ has_break u).
Proof.
  split.
  - intros H u r -> Hu Hb. destruct (span_decomp rx_space r) as (D1 & D2 & D3). destruct (span rx_space r) as [p q]. cbn [fst snd] in *. subst r.
    assert (E : match_para (u ++ p ++ q) = Some q); [|congruence].
    apply match_para_some. exists (u ++ p). split; [apply app_assoc|]. split; [|split; [|exact D3]].
    + apply Forall_app. split; [exact Hu|]. apply Forall_forall, forallb_forall. exact D2.
    + destruct Hb as (a & v & b & -> & Hv). exists a, v, (b ++ p). split; [|exact Hv]. appn. reflexivity.
  - intros H. destruct (match_para x) as [r|] eqn:E; [|reflexivity].
    apply match_para_some in E as (u & -> & Hu & Hb & _). exfalso. exact (H u r eq_refl Hu Hb).
Qed.

(** ** Splitting a text *)
Lemma has_break_app_l a b : has_break a -> has_break (a ++ b).
Proof. intros (p & u & q & -> & Hu). exists p, u, (q ++ b). split; [|exact Hu]. appn. reflexivity. Qed.
Lemma has_break_app_r a b : has_break b -> has_break (a ++ b).
Proof. intros (p & u & q & -> & Hu). exists (a ++ p), u, q. split; [|exact Hu]. appn. reflexivity. Qed.
Lemma has_break_cons c b : has_break b -> has_break (c :: b).
Proof. apply (has_break_app_r [c]). Qed.

Lemma split_para_skip a : forall x, split_para (length a) (a ++ x) = split_para 0 x.
Proof. induction a as [|c a IH]; intros x; [reflexivity|]. cbn [length app split_para]. apply IH. Qed.
Lemma split_para_none p : ~ has_break p -> split_para 0 p = [p].
Proof.
  induction p as [|c p IH]; intros H; [reflexivity|]. cbn [split_para].
  replace (match_para (c :: p)) with (@None str).
  - rewrite IH; [reflexivity|]. intros Hb. apply H, has_break_cons, Hb.
  - symmetry. apply match_para_none. intros u r E Hu Hb. apply H. rewrite E. apply has_break_app_l, Hb.
Qed.
Lemma split_para_cons u x : spaces u -> has_break u -> (forall c r, x = c :: r -> rx_space c = false) ->
  forall p, ~ has_break p -> (forall c r, p = r ++ [c] -> rx_space c = false) ->
  split_para 0 (p ++ u ++ x) = p :: split_para 0 x.
Proof.
  intros Hu Hb Hx. induction p as [|c p IH]; intros Hp Hl.
  - cbn [app]. destruct u as [|c u]; [destruct Hb as (a & v & b & E & _); destruct a; discriminate|].
    cbn [app split_para]. replace (match_para (c :: u ++ x)) with (Some x).
    + rewrite app_length. replace (length u + length x - length x) with (length u) by lia. rewrite split_para_skip. reflexivity.
    + symmetry. apply match_para_some. exists (c :: u). auto.
  - cbn [app split_para]. replace (match_para (c :: p ++ u ++ x)) with (@None str).
    + rewrite IH; [reflexivity| |].
      * intros H. apply Hp, has_break_cons, H.
      * intros d r ->. apply (Hl d (c :: r)). reflexivity.
    + symmetry. apply match_para_none. intros v r E Hv Hbv.
      change (c :: p ++ u ++ x) with ((c :: p) ++ u ++ x) in E. apply app_eq_app in E as (m & [[E1 E2]|[E1 E2]]).
      * apply Hp. rewrite E1. apply has_break_app_l, Hbv.
      * destruct (exists_last (l := c :: p)) as (r' & d & E'); [discriminate|].
        assert (Hd : rx_space d = false) by (apply (Hl d r'); exact E').
        rewrite E1, E' in Hv. apply Forall_app in Hv as [Hv _]. apply Forall_app in Hv as [_ Hv]. inversion Hv; congruence.
Qed.

(** how a text is split *)
Inductive psplit : str -> list str -> Prop :=
| ps_end p : ~ has_break p -> psplit p [p]
| ps_cons p u x ps : ~ has_break p -> (forall c r, p = r ++ [c] -> rx_space c = false) -> spaces u -> has_break u ->
    (forall c r, x = c :: r -> rx_space c = false) -> psplit x ps -> psplit (p ++ u ++ x) (p :: ps).
Lemma psplit_split x ps : psplit x ps -> split_para 0 x = ps.
Proof.
  induction 1 as [p H|p u x ps H1 H2 H3 H4 H5 _ IH]; [apply split_para_none; exact H|].
  rewrite split_para_cons by assumption. rewrite IH. reflexivity.
Qed.
(** a break that spans a character that is no white space is on one of its sides *)
Lemma break_around a c b : rx_space c = false -> has_break (a ++ c :: b) -> has_break a \/ has_break b.
Proof.
  intros Hc (p & u & q & E & Hu).
  apply app_eq_app in E as (m & [[E1 E2]|[E1 E2]]).
  - (* a = p ++ m, 10 :: ... = m ++ c :: b *)
    destruct m as [|d m].
    + cbn [app] in E2. injection E2 as <- _. discriminate.
    + cbn [app] in E2. injection E2 as <- E2. apply app_eq_app in E2 as (m' & [[E3 E4]|[E3 E4]]).
      * (* u = m ++ m', c :: b = m' ++ ... *)
        destruct m' as [|d m']; cbn [app] in E4.
        -- injection E4 as -> _. discriminate.
        -- injection E4 as -> _. rewrite E3 in Hu. apply Forall_app in Hu as [_ Hu]. inversion Hu; congruence.
      * destruct m' as [|d m']; cbn [app] in E4; injection E4 as E4 E5; [subst c; discriminate|].
        left. exists p, u, m'. split; [|exact Hu]. rewrite E1, E3, <- E4. reflexivity.
  - destruct m as [|d m]; cbn [app] in E2; injection E2 as E2 E3.
    + subst c. discriminate.
    + right. exists m, u, q. split; [exact E3|exact Hu].
Qed.
Lemma psplit_total : forall x, exists ps, psplit x ps.
Proof.
  intros x. remember (length x) as n. revert x Heqn. induction n as [n IH] using lt_wf_ind. intros x ->.
  assert (Hone : forall c r ps, rx_space c = false -> psplit r ps -> exists ps', psplit (c :: r) ps').
  { intros c r ps Hc H. destruct H as [p Hp|p u y ps H1 H2 H3 H4 H5 H].
    - exists [c :: p]. constructor. intros Hb. apply (break_around [] c p Hc) in Hb as [Hb|Hb]; [|tauto].
      destruct Hb as (a & ? & ? & E & _). destruct a; discriminate.
    - exists ((c :: p) :: ps). apply (ps_cons (c :: p)); auto.
      + intros Hb. apply (break_around [] c p Hc) in Hb as [Hb|Hb]; [|tauto].
        destruct Hb as (a & ? & ? & E & _). destruct a; discriminate.
      + intros d r E. destruct r as [|e r]; [injection E as -> _; exact Hc|]. injection E as -> E. apply (H2 d r E). }
  destruct (span_decomp rx_space x) as (D1 & D2 & D3). destruct (span rx_space x) as [u r]. cbn [fst snd] in *.
  assert (Hu : spaces u) by (apply Forall_forall, forallb_forall; exact D2).
  destruct u as [|c0 u].
  - cbn [app] in D1. subst r. destruct x as [|c x]; [exists [[]]; constructor; intros (a & ? & ? & E & _); destruct a; discriminate|].
    destruct (IH (length x) ltac:(cbn; lia) x eq_refl) as [ps H]. apply (Hone c x ps); [eapply D3; reflexivity|exact H].
  - destruct (match_para (c0 :: u)) as [r'|] eqn:E.
    + apply match_para_some in E as (u' & E & _ & Hb & Hr').
      assert (Hbu : has_break (c0 :: u)) by (rewrite E; apply has_break_app_l; exact Hb).
      destruct (IH (length r) ltac:(rewrite D1, app_length; cbn; lia) r eq_refl) as [ps H].
      exists ([] :: ps). rewrite D1. apply (ps_cons [] (c0 :: u) r ps); auto.
      * intros (a & ? & ? & E' & _). destruct a; discriminate.
      * intros d r0 E'. destruct r0; discriminate.
    + assert (Hn : ~ has_break (c0 :: u)).
      { rewrite match_para_none in E. apply (E (c0 :: u) []); [rewrite app_nil_r; reflexivity|exact Hu]. }
      destruct r as [|d r].
      * rewrite app_nil_r in D1. subst x. exists [c0 :: u]. constructor. exact Hn.
      * assert (Hd : rx_space d = false) by (eapply D3; reflexivity).
        destruct (IH (length (d :: r)) ltac:(rewrite D1, app_length; cbn; lia) (d :: r) eq_refl) as [ps H].
        rewrite D1. remember (d :: r) as y. destruct H as [p Hp|p u' y' ps H1 H2 H3 H4 H5 H].
        -- subst p. exists [(c0 :: u) ++ d :: r]. constructor. intros Hb.
           apply break_around in Hb as [Hb|Hb]; [tauto| |exact Hd]. apply Hp, has_break_cons, Hb.
        -- destruct p as [|e p].
           { exfalso. destruct u' as [|e u']; [destruct H4 as (a & ? & ? & E' & _); destruct a; discriminate|].
             cbn [app] in Heqy. injection Heqy as -> _. inversion H3; congruence. }
           cbn [app] in Heqy. injection Heqy as -> Er.
           exists (((c0 :: u) ++ d :: p) :: ps).
           replace ((c0 :: u) ++ (d :: p) ++ u' ++ y') with (((c0 :: u) ++ d :: p) ++ u' ++ y') by (rewrite <- app_assoc; reflexivity).
           apply ps_cons; auto.
           ++ intros Hb. apply break_around in Hb as [Hb|Hb]; [tauto| |exact Hd]. apply H1, has_break_cons, Hb.
           ++ intros e r0 E'. destruct (exists_last (l := d :: p)) as (r1 & e1 & E1); [discriminate|].
              rewrite E1, app_assoc in E'. apply app_inj_tail in E' as [_ <-]. apply (H2 _ _ E1).
Qed.
Lemma split_para_psplit x : psplit x (split_para 0 x).
Proof. destruct (psplit_total x) as [ps H]. rewrite (psplit_split x ps H). exact H. Qed.

(** ** Grouping *)
Definition finish (l : list item) : list item := make_pars (assign_roles (clean_paragraphs l)).
Lemma finish_app a b : finish (a ++ b) = finish a ++ finish b.
Proof. unfold finish, clean_paragraphs, assign_roles, make_pars. rewrite filter_app, !map_app. reflexivity. Qed.
Lemma finish_flush sub : finish (flush sub) = if forallb blank_item sub then [] else [IPar (assign_sub sub)].
Proof.
  destruct sub as [|i sub]; [reflexivity|]. unfold finish, flush, clean_paragraphs. cbn [filter].
  destruct (forallb blank_item (i :: sub)); reflexivity.
Qed.
Lemma events_app a b : events (a ++ b) = events a ++ events b.
Proof. unfold events. rewrite map_app, concat_app. reflexivity. Qed.
Lemma events_set_role ro l : events (map (set_role ro) l) = events l.
Proof. unfold events. rewrite map_map. f_equal. apply map_ext. intros []; reflexivity. Qed.
Lemma events_assign sub : events (assign_sub sub) = events sub.
Proof. unfold assign_sub. destruct (_ && _); [apply events_set_role|]. destruct (Nat.ltb _ _); [apply events_set_role|reflexivity]. Qed.
Lemma par_item_assign sub : Forall par_item sub -> Forall par_item (assign_sub sub).
Proof.
  intros H. assert (G : forall ro, Forall par_item (map (set_role ro) sub)).
  { intros ro. apply Forall_map. eapply Forall_impl; [|exact H]. intros []; auto. }
  unfold assign_sub. destruct (_ && _); [apply G|]. destruct (Nat.ltb _ _); [apply G|exact H].
Qed.
Lemma strip_blank s : strip s = [] <-> blank s.
Proof. unfold strip, blank. rewrite strip_p_nil_iff, Forall_forall. apply forallb_forall. Qed.
Lemma map_Chr_inj a b : map Chr a = map Chr b -> a = b.
Proof. revert b. induction a as [|c a IH]; intros [|d b] H; try discriminate; [reflexivity|]. injection H as -> H. f_equal. auto. Qed.
Lemma blank_items sub : forallb blank_item sub = true <-> exists t, events sub = map Chr t /\ blank t.
Proof.
  induction sub as [|i sub IH].
  - split; [|reflexivity]. intros _. exists []. split; [reflexivity|constructor].
  - cbn [forallb]. rewrite andb_true_iff, IH. change (events (i :: sub)) with (item_events i ++ events sub). split.
    + intros [Hi (t & Et & Ht)]. destruct i as [s| | | |]; try discriminate. cbn [blank_item] in Hi. apply eqb_eq in Hi.
      exists (s ++ t). cbn [item_events]. rewrite Et, map_app. split; [reflexivity|].
      apply Forall_app. split; [|exact Ht]. apply strip_blank, Hi.
    + intros (t & Et & Ht). destruct i as [s| | | |]; try (destruct t; discriminate). cbn [item_events] in Et.
      symmetry in Et. apply map_eq_app in Et as (t1 & t2 & -> & E1 & E2). apply map_Chr_inj in E1 as ->.
      apply Forall_app in Ht as [H1 H2]. split; [|eauto]. cbn [blank_item]. apply eqb_eq. apply strip_blank. exact H1.
Qed.
Lemma spaces_blank u : spaces u -> blank u.
Proof. apply Forall_impl. intros c. apply rx_space_space. Qed.

(** closing a group: it is dropped if it is blank, or becomes a paragraph *)
Lemma close_group b w sub e l :
  blank w -> (b = true -> has_break w) -> Forall par_item sub ->
  (forall w', blank w' -> (b = true -> has_break w') -> forallb blank_item sub = true -> laid_out b (map Chr w' ++ e) l) ->
  (forallb blank_item sub = false -> laid_out true e l) ->
  laid_out b (map Chr w ++ events sub ++ e) (finish (flush sub) ++ l).
Proof.
  intros Hw Hb Hs H1 H2. rewrite finish_flush. destruct (forallb blank_item sub) eqn:E.
  - apply blank_items in E as E'. destruct E' as (t & -> & Ht). cbn [app]. rewrite app_assoc, <- map_app. apply H1; [|intros; apply has_break_app_l; auto|reflexivity].
    apply Forall_app. auto.
  - rewrite <- (events_assign sub). cbn [app]. apply lo_par; auto.
    + apply par_item_assign, Hs.
    + rewrite events_assign, <- blank_items. congruence.
Qed.

Definition str_item (p : str) : list item := match p with [] => [] | _ => [IStr p] end.
Lemma events_str p : events (str_item p) = map Chr p.
Proof. destruct p; [reflexivity|]. unfold events. cbn. rewrite app_nil_r. reflexivity. Qed.
Lemma add_pieces_cons sub p ps : add_pieces sub (p :: ps) =
  match ps with
  | [] => ([], sub ++ str_item p)
  | _ => (flush (sub ++ str_item p) ++ fst (add_pieces [] ps), snd (add_pieces [] ps))
  end.
Proof.
  cbn [add_pieces]. replace (match p with [] => sub | _ :: _ => sub ++ [IStr p] end) with (sub ++ str_item p).
  - destruct ps; [reflexivity|]. destruct (add_pieces [] (l :: ps)). reflexivity.
  - destruct p; cbn [str_item]; [apply app_nil_r|reflexivity].
Qed.

Section Layout.
(** [rest] is what is grouped after the pieces of a text *)
Variables (rest : list event) (out : list item -> list item).
Lemma layout_pieces s ps : psplit s ps -> forall b w sub,
  blank w -> (b = true -> has_break w) -> Forall par_item sub ->
  (forall b w sub, blank w -> (b = true -> has_break w) -> Forall par_item sub ->
     laid_out b (map Chr w ++ events sub ++ rest) (finish (out sub))) ->
  laid_out b (map Chr w ++ events sub ++ map Chr s ++ rest)
    (finish (fst (add_pieces sub ps) ++ out (snd (add_pieces sub ps)))).
Proof.
  induction 1 as [p Hp|p u x ps Hp H2 H3 H4 H5 Hx IH]; intros b w sub Hw Hb Hs Hout; rewrite add_pieces_cons.
  - cbn [fst snd app]. replace (events sub ++ map Chr p ++ rest) with (events (sub ++ str_item p) ++ rest).
    + apply Hout; auto. apply Forall_app. split; [exact Hs|]. destruct p; repeat constructor. exact Hp.
    + rewrite events_app, events_str, app_assoc. reflexivity.
  - replace (match ps with [] => ([], sub ++ str_item p) | _ :: _ => (flush (sub ++ str_item p) ++ fst (add_pieces [] ps), snd (add_pieces [] ps)) end)
      with (flush (sub ++ str_item p) ++ fst (add_pieces [] ps), snd (add_pieces [] ps)).
    2:{ destruct Hx; reflexivity. }
    cbn [fst snd]. rewrite <- app_assoc, finish_app.
    replace (events sub ++ map Chr (p ++ u ++ x) ++ rest) with (events (sub ++ str_item p) ++ map Chr u ++ map Chr x ++ rest).
    2:{ rewrite events_app, events_str, !map_app. rewrite <- !app_assoc. reflexivity. }
    assert (Hu : blank u) by (apply spaces_blank; exact H3).
    apply close_group; auto.
    + apply Forall_app. split; [exact Hs|]. destruct p; repeat constructor. exact Hp.
    + intros w' Hw' Hb' _. rewrite app_assoc, <- map_app. apply (IH b (w' ++ u) []); auto.
      * apply Forall_app. auto.
      * intros _. apply has_break_app_r. exact H4.
    + intros _. apply (IH true u []); auto.
Qed.
End Layout.

Lemma layout : forall l, flat l -> forall b w sub, blank w -> (b = true -> has_break w) -> Forall par_item sub ->
  laid_out b (map Chr w ++ events sub ++ events l) (finish (group_from sub l)).
Proof.
  induction l as [|i l IH]; intros Hf b w sub Hw Hb Hs.
  - cbn [group_from]. rewrite <- (app_nil_r (finish (flush sub))). apply close_group; auto.
    + intros w' Hw' _ _. change (events []) with (@nil event). rewrite app_nil_r. constructor. exact Hw'.
    + intros _. apply (lo_end true []). constructor.
  - assert (Hf' : flat l) by (intros l' Hl; apply (Hf l'); right; exact Hl). specialize (IH Hf').
    assert (Hin : forall j, i = j -> par_item j -> group_from sub (i :: l) = group_from (sub ++ [j]) l ->
              laid_out b (map Chr w ++ events sub ++ events (i :: l)) (finish (group_from sub (i :: l)))).
    { intros j <- Hj ->. change (events (i :: l)) with (item_events i ++ events l).
      replace (events sub ++ item_events i ++ events l) with (events (sub ++ [i]) ++ events l).
      - apply IH; auto. apply Forall_app. auto.
      - rewrite events_app, <- app_assoc. unfold events. cbn [map concat]. rewrite app_nil_r. reflexivity. }
    assert (Hout : solo i -> group_from sub (i :: l) = flush sub ++ i :: group_from [] l ->
              laid_out b (map Chr w ++ events sub ++ events (i :: l)) (finish (group_from sub (i :: l)))).
    { intros Hi ->. rewrite finish_app.
      assert (Hfi : finish (i :: group_from [] l) = i :: finish (group_from [] l)).
      { change (i :: group_from [] l) with ([i] ++ group_from [] l). rewrite finish_app. destruct Hi as [(id & ro & ->)|(p & ->)]; reflexivity. }
      assert (He : events (i :: l) = Thing (no_role i) :: events l) by (destruct Hi as [(id & ro & ->)|(p & ->)]; reflexivity).
      rewrite Hfi, He. apply close_group; auto.
      - intros w' Hw' _ _. apply lo_solo; auto. apply (IH false [] []); auto; [constructor|discriminate].
      - intros _. apply (lo_solo true []); auto; [constructor|]. apply (IH false [] []); auto; [constructor|discriminate]. }
    destruct i as [s|id [] ro|p|id|l'].
    + cbn [group_from]. destruct (add_pieces sub (split_para 0 s)) as [gs sub'] eqn:E.
      change (events (IStr s :: l)) with (map Chr s ++ events l).
      replace gs with (fst (add_pieces sub (split_para 0 s))) by (rewrite E; reflexivity).
      replace sub' with (snd (add_pieces sub (split_para 0 s))) by (rewrite E; reflexivity).
      apply (layout_pieces (events l) (fun sub => group_from sub l)); auto. apply split_para_psplit.
    + apply (Hin (ITag id true ro)); reflexivity.
    + apply Hout; [left; eauto|reflexivity].
    + apply Hout; [right; eauto|reflexivity].
    + apply (Hin (IObj id)); [reflexivity|exact I|reflexivity].
    + exfalso. apply (Hf l'). left. reflexivity.
Qed.

Definition unwrap1 (g : list item) : content := match g with [i] => CItem i | _ => CList g end.
Lemma process_str x : process (CStr x) = unwrap1 (finish (group_from [] [IStr x])).
Proof. cbn [process]. unfold unwrap1, finish, group_paragraphs. destruct (make_pars _) as [|i [|j g]]; reflexivity. Qed.
Lemma process_list l : process (CList l) = unwrap1 (finish (group_from [] l)).
Proof. cbn [process]. unfold unwrap1, finish, group_paragraphs. destruct (make_pars _) as [|i [|j g]]; reflexivity. Qed.
Lemma items_unwrap g : items_of (unwrap1 g) = g.
Proof. destruct g as [|i [|j g]]; reflexivity. Qed.
(** items that are left alone when paragraphs are made again *)
Definition settled (i : item) : Prop := solo i.
Lemma group_settled l : Forall settled l -> group_from [] l = l.
Proof.
  induction 1 as [|i l Hi _ IH]; [reflexivity|].
  destruct Hi as [(id & ro & ->)|(p & ->)]; cbn [group_from flush app]; rewrite IH; reflexivity.
Qed.
Lemma finish_settled l : Forall settled l -> finish l = l.
Proof.
  induction 1 as [|i l Hi _ IH]; [reflexivity|]. change (i :: l) with ([i] ++ l). rewrite finish_app, IH.
  destruct Hi as [(id & ro & ->)|(p & ->)]; reflexivity.
Qed.
Definition grouped (i : item) : Prop := solo i \/ exists l, i = IList l.
Lemma flush_grouped sub : Forall grouped (flush sub).
Proof. destruct sub; cbn [flush]; constructor; [right; eauto|constructor]. Qed.
Lemma add_pieces_grouped : forall ps sub, Forall grouped (fst (add_pieces sub ps)).
Proof.
  induction ps as [|p ps IH]; intros sub; [constructor|]. rewrite add_pieces_cons. destruct ps as [|q ps]; [constructor|].
  cbn [fst]. apply Forall_app. split; [apply flush_grouped|apply IH].
Qed.
Lemma group_grouped : forall l sub, Forall grouped (group_from sub l).
Proof.
  induction l as [|i l IH]; intros sub; [apply flush_grouped|].
  destruct i as [s|id [] ro|p|id|l']; cbn [group_from]; auto.
  - pose proof (add_pieces_grouped (split_para 0 s) sub) as H. destruct (add_pieces sub (split_para 0 s)) as [gs sub']. apply Forall_app. auto.
  - apply Forall_app. split; [apply flush_grouped|]. constructor; [left; left; eauto|apply IH].
  - apply Forall_app. split; [apply flush_grouped|]. constructor; [left; right; eauto|apply IH].
  - apply Forall_app. split; [apply flush_grouped|]. constructor; [right; eauto|apply IH].
Qed.
Lemma finish_grouped l : Forall grouped l -> Forall settled (finish l).
Proof.
  intros H. unfold finish, make_pars, assign_roles, clean_paragraphs. rewrite map_map. apply Forall_map, Forall_forall.
  intros i Hi. apply filter_In in Hi as [Hi _]. rewrite Forall_forall in H. destruct (H i Hi) as [[(id & ro & ->)|(p & ->)]|(p & ->)]; unfold settled, solo.
  - left. eauto.
  - right. eauto.
  - right. eauto.
Qed.

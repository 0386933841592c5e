(** C22: paragraphs. *)
From Coq Require Import List Bool Arith NArith Lia.
From Verif.Base Require Import Str StrFacts ListFacts PyText.
From Verif.Model Require Import Paragraphs.
From Verif.Spec Require Import Paragraphs.
From Verif.Proof Require Import Paragraphs.
Import ListNotations.

(** C22: making paragraphs keeps all text and all tags, in order: only white
    space around paragraphs is left out, paragraphs are what stands between
    paragraph breaks, and no paragraph holds another one. *)
Theorem C22_layout :
  forall c : content, flat (items_of c) -> (forall i, c <> CItem i) ->
    laid_out false (events (items_of c)) (items_of (process c)).
Proof.
  intros c Hf Hc.
  assert (G : forall l, flat l -> laid_out false (events l) (finish (group_from [] l))).
  { intros l Hl. apply (layout l Hl false [] []); [constructor|discriminate|constructor]. }
  destruct c as [s|l|i]; [| |congruence].
  - rewrite process_str.
    rewrite items_unwrap. apply G, Hf.
  - rewrite process_list.
    rewrite items_unwrap. apply G, Hf.
Qed.

(** C22: making paragraphs again changes nothing. *)
Theorem C22_idempotent : forall c : content, process (process c) = process c.
Proof.
  assert (G : forall g, Forall settled g -> process (unwrap1 g) = unwrap1 g).
  { intros g Hg. assert (E : process (CList g) = unwrap1 g).
    { rewrite process_list, group_settled, finish_settled by exact Hg. reflexivity. }
    destruct g as [|i [|j g]]; [exact E|reflexivity|exact E]. }
  assert (F : forall l, Forall settled (finish (group_from [] l))).
  { intros l. apply finish_grouped, group_grouped. }
  intros [s|l|i]; [| |reflexivity].
  - rewrite process_str. apply G, F.
  - rewrite process_list. apply G, F.
Qed.

(** C22: a text becomes one paragraph for every part between breaks, without
    white space around it. *)
Theorem C22_texts :
  forall (ps : list str) (x before after : str), apart ps x ->
    (before = [] \/ gap before) -> (after = [] \/ gap after) ->
    items_of (process (CStr (before ++ x ++ after))) = map (fun p => IPar [IStr p]) ps.
Proof.
  intros ps x before after Hx Hb Ha.
  assert (Hnb : ~ has_break []) by (intros (a & ? & ? & E & _); destruct a; discriminate).
  assert (Hsp : psplit (x ++ after) (ps ++ match after with [] => [] | _ => [[]] end) /\ (exists c r, x = c :: r /\ rx_space c = false)).
  { induction Hx as [p (H1 & H2 & c & r & E & Hc)|p u ps x (H1 & H2 & c & r & E & Hc) [Hu1 Hu2] Hx [IH (d & r' & Ed & Hd)]].
    - split; [|destruct H2 as (d' & r'' & -> & H2); exists d'; eexists; split; [reflexivity|apply not_space_rx, H2]].
      destruct Ha as [->|[Ha1 Ha2]].
      + rewrite !app_nil_r. constructor. exact H1.
      + replace (match after with [] => [] | _ => [[]] end) with [@nil N].
        2:{ destruct after; [contradiction|reflexivity]. }
        replace (p ++ after) with (p ++ after ++ []) by (rewrite app_nil_r; reflexivity). apply (ps_cons p after [] [[]]); auto.
        * intros d r' E'. rewrite E in E'. apply app_inj_tail in E' as [_ <-]. apply not_space_rx, Hc.
        * intros d r' E'. discriminate.
        * constructor. exact Hnb.
    - split; [|destruct H2 as (d' & r'' & -> & H2); exists d'; eexists; split; [reflexivity|apply not_space_rx, H2]].
      rewrite <- !app_assoc. cbn [app]. apply ps_cons; auto.
      + intros e r'' E'. rewrite E in E'. apply app_inj_tail in E' as [_ <-]. apply not_space_rx, Hc.
      + intros e r'' E'. rewrite Ed in E'. injection E' as <- _. exact Hd. }
  destruct Hsp as [Hsp (c & r & Ex & Hc)].
  assert (Hne : Forall (fun p => p <> [] /\ ~ blank p) ps).
  { clear -Hx. assert (G : forall p, par_text p -> p <> [] /\ ~ blank p).
    { intros p (_ & (c & r & -> & Hc) & _). split; [discriminate|]. intros Hb. inversion Hb; congruence. }
    induction Hx as [p Hp|p u ps x Hp _ _ IH]; constructor; auto. }
  set (tail := match after with [] => [] | _ => [@nil N] end) in *.
  assert (Hall : psplit (before ++ x ++ after) (match before with [] => ps ++ tail | _ => [] :: ps ++ tail end)).
  { destruct Hb as [->|[Hb1 Hb2]]; [exact Hsp|]. destruct before as [|b0 before]; [contradiction|].
    apply (ps_cons [] (b0 :: before) (x ++ after)); auto.
    - intros e r' E. destruct r'; discriminate.
    - intros e r' E. rewrite Ex in E. injection E as <- _. exact Hc. }
  rewrite process_str.
  rewrite items_unwrap. cbn [group_from]. rewrite (psplit_split _ _ Hall).
  assert (Hps : forall ps, Forall (fun p => p <> [] /\ ~ blank p) ps ->
    let '(gs, sub) := add_pieces [] (ps ++ tail) in finish (gs ++ flush sub) = map (fun p => IPar [IStr p]) ps).
  { assert (Hone : forall p, p <> [] /\ ~ blank p -> finish (flush (str_item p)) = [IPar [IStr p]]).
    { intros p [H1 H2]. destruct p as [|d p]; [congruence|]. cbn [str_item]. rewrite finish_flush.
      destruct (forallb blank_item [IStr (d :: p)]) eqn:E.
      - exfalso. cbn [forallb blank_item] in E. rewrite andb_true_r in E. apply eqb_eq in E. apply H2, strip_blank, E.
      - unfold assign_sub. cbn [filter is_tag length Nat.eqb andb Nat.ltb Nat.leb]. reflexivity. }
    clear Hsp Hall Hx Hne. clear ps. intros ps. induction 1 as [|p ps Hp Hps IH].
    - subst tail. destruct after; reflexivity.
    - destruct (add_pieces [] ((p :: ps) ++ tail)) as [gs sub] eqn:E. cbn [app] in E. rewrite add_pieces_cons in E.
      destruct (ps ++ tail) as [|q qs] eqn:Eq.
      + apply app_eq_nil in Eq as [-> _]. cbn [app] in E. injection E as <- <-. cbn [app map]. apply Hone, Hp.
      + cbn [app] in E. destruct (add_pieces [] (q :: qs)) as [gs' sub']. cbn [fst snd] in E. injection E as <- <-.
        rewrite <- app_assoc, finish_app, IH, Hone by exact Hp. reflexivity. }
  destruct before as [|b0 before].
  - specialize (Hps ps Hne). destruct (add_pieces [] (ps ++ tail)) as [gs sub]. exact Hps.
  - specialize (Hps ps Hne). rewrite add_pieces_cons. destruct (ps ++ tail) as [|q qs] eqn:Eq.
    + apply app_eq_nil in Eq as [-> _]. inversion Hx.
    + destruct (add_pieces [] (q :: qs)) as [gs sub]. exact Hps.
Qed.

(** C22: the tags of a new paragraph know whether they stand alone in it. *)
Lemma tags_in_le l : tags_in l <= length l.
Proof. unfold tags_in. induction l as [|i l IH]; [reflexivity|]. cbn [filter]. destruct (is_tag i); cbn [length]; lia. Qed.
Lemma assign_right sub : right_roles (assign_sub sub) \/ (length sub <= 1 /\ assign_sub sub = sub /\ tags_in sub = 0).
Proof.
  assert (Htags : forall ro l, tags_in (map (set_role ro) l) = tags_in l).
  { intros ro l. unfold tags_in. induction l as [|i l IH]; [reflexivity|]. cbn [map filter].
    replace (is_tag (set_role ro i)) with (is_tag i) by (destruct i; reflexivity). destruct (is_tag i); cbn [length]; auto. }
  assert (Htext : forall ro l, text_beside (map (set_role ro) l) <-> text_beside l).
  { intros ro l. unfold text_beside. split; intros (s & Hs & Hb); exists s; (split; [|exact Hb]).
    - apply in_map_iff in Hs as (i & Ei & Hi). destruct i; try discriminate. cbn in Ei. congruence.
    - apply in_map_iff. exists (IStr s). auto. }
  assert (Hnb : length (filter nonblank_string sub) = 0 <-> ~ text_beside sub).
  { split.
    - intros H (s & Hs & Hb). assert (F : In (IStr s) (filter nonblank_string sub)).
      { apply filter_In. split; [exact Hs|]. cbn. apply negb_true_iff. apply eqb_neq. intros E. apply Hb, strip_blank, E. }
      destruct (filter nonblank_string sub); [contradiction|discriminate].
    - intros H. destruct (filter nonblank_string sub) as [|i l] eqn:E; [reflexivity|]. exfalso. apply H.
      assert (F : In i (filter nonblank_string sub)) by (rewrite E; left; reflexivity). apply filter_In in F as [F1 F2].
      destruct i as [s| | | |]; try discriminate. exists s. split; [exact F1|]. cbn in F2. apply negb_true_iff, eqb_neq in F2.
      intros Hb. apply F2, strip_blank, Hb. }
  unfold assign_sub. fold (tags_in sub).
  destruct (Nat.eqb_spec (tags_in sub) 1) as [E1|E1], (Nat.eqb_spec (length (filter nonblank_string sub)) 0) as [E2|E2]; cbn [andb].
  - left. intros id inc ro Hi. rewrite Htags, Htext. apply Hnb in E2.
    apply in_map_iff in Hi as (i & Ei & Hi). destruct i; try discriminate. injection Ei as _ _ <-. tauto.
  - assert (L : 1 < length sub).
    { assert (tags_in sub + length (filter nonblank_string sub) <= length sub); [|lia]. clear. unfold tags_in.
      induction sub as [|i l IH]; [reflexivity|]. cbn [filter]. destruct i; cbn [is_tag nonblank_string length]; try lia.
      destruct (negb _); cbn [length]; lia. }
    rewrite (proj2 (Nat.ltb_lt 1 (length sub)) L). left. intros id inc ro Hi. rewrite Htags, Htext.
    apply in_map_iff in Hi as (i & Ei & Hi). destruct i; try discriminate. injection Ei as _ _ <-. tauto.
  - destruct (Nat.ltb_spec 1 (length sub)) as [L|L].
    + left. intros id inc ro Hi. rewrite Htags, Htext.
      apply in_map_iff in Hi as (i & Ei & Hi). destruct i; try discriminate. injection Ei as _ _ <-. tauto.
    + right. split; [exact L|]. split; [reflexivity|]. assert (tags_in sub <= length sub) by (apply tags_in_le). lia.
  - destruct (Nat.ltb_spec 1 (length sub)) as [L|L].
    + left. intros id inc ro Hi. rewrite Htags, Htext.
      apply in_map_iff in Hi as (i & Ei & Hi). destruct i; try discriminate. injection Ei as _ _ <-. tauto.
    + right. split; [exact L|]. split; [reflexivity|]. assert (tags_in sub <= length sub) by (apply tags_in_le). lia.
Qed.
Theorem C22_roles :
  forall (c : content) (p : list item),
    In (IPar p) (items_of (process c)) -> In (IPar p) (items_of c) \/ right_roles p.
Proof.
  assert (G : forall l p, In (IPar p) (finish (group_from [] l)) -> In (IPar p) l \/ right_roles p).
  { assert (Hfin : forall g p, In (IPar p) (finish g) -> In (IPar p) g \/ right_roles p).
    { intros g p H. unfold finish, make_pars, assign_roles, clean_paragraphs in H. rewrite map_map in H.
      apply in_map_iff in H as (i & Ei & Hi). apply filter_In in Hi as [Hi _]. destruct i as [s|id inc ro|p'|id|sub]; try discriminate.
      - left. congruence.
      - right. injection Ei as <-. destruct (assign_right sub) as [H|(_ & -> & H)]; [exact H|].
        intros id inc ro Hin. exfalso. assert (F : In (ITag id inc ro) (filter is_tag sub)) by (apply filter_In; auto).
        unfold tags_in in H. destruct (filter is_tag sub); [contradiction|discriminate]. }
    assert (Hfl : forall sub p, ~ In (IPar p) (flush sub)) by (intros [|] p; cbn; [tauto|intros [H|[]]; discriminate]).
    assert (Hap : forall ps sub p, ~ In (IPar p) (fst (add_pieces sub ps))).
    { induction ps as [|q ps IH]; intros sub p; [intros []|]. rewrite add_pieces_cons. destruct ps; [intros []|].
      cbn [fst]. rewrite in_app_iff. intros [H|H]; [exact (Hfl _ _ H)|exact (IH _ _ H)]. }
    assert (Hgr : forall l sub p, In (IPar p) (group_from sub l) -> In (IPar p) l).
    { induction l as [|i l IH]; intros sub p H; [exfalso; exact (Hfl _ _ H)|].
      destruct i as [s|id [] ro|p'|id|l']; cbn [group_from] in H.
      - pose proof (Hap (split_para 0 s) sub p) as Ha. destruct (add_pieces sub (split_para 0 s)) as [gs sub'].
        rewrite in_app_iff in H. destruct H as [H|H]; [contradiction|]. right. eauto.
      - right. eauto.
      - rewrite in_app_iff in H. destruct H as [H|[H|H]]; [exfalso; exact (Hfl _ _ H)|discriminate|right; eauto].
      - rewrite in_app_iff in H. destruct H as [H|[H|H]]; [exfalso; exact (Hfl _ _ H)|left; exact H|right; eauto].
      - right. eauto.
      - rewrite in_app_iff in H. destruct H as [H|[H|H]]; [exfalso; exact (Hfl _ _ H)|discriminate|right; eauto]. }
    intros l p H. apply Hfin in H as [H|H]; [left; eauto|right; exact H]. }
  intros [s|l|i] p H; [| |left; exact H].
  - rewrite process_str in H.
    rewrite items_unwrap in H. exact (G _ _ H).
  - rewrite process_list in H.
    rewrite items_unwrap in H. exact (G _ _ H).
Qed.

(** A content with two paragraphs, a heading, a tag within text and a tag that
    stands alone. *)
Definition nl2 : str := [10; 10]%N.
Example C22_ex :
  process (CList [IStr (nl2 ++ lit "one "); ITag 1 true None; IStr (nl2 ++ lit "two"); ITag 2 false None; IStr nl2; ITag 3 true None; IStr [10%N]]) =
  CList [IPar [IStr (lit "one "); ITag 1 true (Some Inline)]; IPar [IStr (lit "two")]; ITag 2 false None;
         IPar [ITag 3 true (Some Block); IStr [10%N]]].
Proof. reflexivity. Qed.
Example C22_ex_texts :
  apart [lit "one"; lit "two words"] (lit "one" ++ [32; 10; 32; 10]%N ++ lit "two words") /\
  items_of (process (CStr (nl2 ++ lit "one" ++ [32; 10; 32; 10]%N ++ lit "two words"))) =
    [IPar [IStr (lit "one")]; IPar [IStr (lit "two words")]].
Proof.
  assert (P : forall p, In p [lit "one"; lit "two words"] -> par_text p).
  { intros p Hp. assert (Hb : ~ In 10%N p).
    { destruct Hp as [<-|[<-|[]]]; vm_compute; intuition discriminate. }
    split; [|split].
    - intros (a & u & b & -> & _). apply Hb. apply in_elt.
    - destruct Hp as [<-|[<-|[]]]; do 2 eexists; split; reflexivity.
    - destruct Hp as [<-|[<-|[]]]; [exists 101%N, (lit "on")|exists 115%N, (lit "two word")]; split; reflexivity. }
  split; [|reflexivity]. apply ap_cons.
  - apply P. left. reflexivity.
  - split; [repeat constructor|]. exists [32%N], [32%N], []. split; [reflexivity|repeat constructor].
  - apply ap_one, P. right. left. reflexivity.
Qed.

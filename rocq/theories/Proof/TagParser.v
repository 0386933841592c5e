(** Lemmas about the parser of tags. *)
From Coq Require Import List Bool Arith NArith Lia.
From Verif.Base Require Import Str StrFacts ListFacts PyText Result.
From Verif.Model Require Import Attributes StringUtils TagParser.
From Verif.Spec Require Import TagParser.
From Verif.Proof Require Import Attributes StringUtils.
Import ListNotations.

Section ContentInd.
  Variable P : content -> Prop.
  Hypothesis Ht : forall s, P (Text s).
  Hypothesis Hg : forall n a c, P c -> P (Tag n a c).
  Hypothesis Hl : forall l, Forall P l -> P (Items l).
  Fixpoint content_ind' (v : content) : P v :=
    match v with
    | Text s => Ht s
    | Tag n a c => Hg n a c (content_ind' c)
    | Items l => Hl l ((fix go l : Forall P l :=
                          match l with
                          | nil => Forall_nil P
                          | x :: r => Forall_cons x (content_ind' x) (go r)
                          end) l)
    end.
End ContentInd.

Section TagParserProofs.
Variables (uw : char -> bool) (verbatim : str -> bool).
Notation match_open := (match_open uw).
Notation search_open := (search_open uw).
Notation parse_items := (parse_items uw verbatim).
Notation parse_text := (parse_text uw verbatim).
Notation parse_tags := (parse_tags uw verbatim).

Definition brace_text (opened : bool) : str := if opened then [123%N] else [].

Lemma match_attrs_spec x : x = attrs_text (fst (match_attrs x)) ++ snd (match_attrs x) /\ written_attrs (fst (match_attrs x)).
Proof.
  unfold match_attrs. destruct x as [|c r]; [split; reflexivity|].
  destruct (N.eqb_spec c 91) as [->|]; [|split; reflexivity].
  destruct (span_decomp (fun d => negb (N.eqb d 93)) r) as (E & H & Hn).
  destruct (span _ r) as [i r'] eqn:Es. cbn [fst snd] in *.
  destruct i as [|d i]; [split; reflexivity|]. destruct r' as [|e r']; [split; reflexivity|].
  cbn [fst snd attrs_text written_attrs].
  specialize (Hn e r' eq_refl). apply negb_false_iff in Hn. apply N.eqb_eq in Hn. subst e. split.
  - rewrite E. cbn [app]. rewrite <- app_assoc. reflexivity.
  - exists (d :: i). split; [reflexivity|]. split; [discriminate|]. intros Hi.
    rewrite forallb_forall in H. specialize (H _ Hi). discriminate.
Qed.
Lemma match_open_spec x name attrs opened rest : match_open x = Some (name, attrs, opened, rest) ->
  x = [64%N] ++ name ++ attrs_text attrs ++ brace_text opened ++ rest /\ tag_name uw name /\ written_attrs attrs.
Proof.
  unfold TagParser.match_open. destruct x as [|a [|c r]]; try discriminate.
  destruct (N.eqb_spec a 64) as [->|]; [|discriminate]. cbn [andb]. destruct (alnum c) eqn:Ec; [|discriminate].
  destruct (span_decomp (is_word uw) r) as (E & H & _). destruct (span (is_word uw) r) as [w r1]. cbn [fst snd] in *.
  pose proof (match_attrs_spec r1) as [E1 Hw]. destruct (match_attrs r1) as [at_ r2]. cbn [fst snd] in *.
  assert (Hname : tag_name uw (c :: w)).
  { exists c, w. split; [reflexivity|]. split; [exact Ec|]. apply Forall_forall. intros d Hd.
    rewrite forallb_forall in H. auto. }
  destruct r2 as [|b r3].
  - intros [= <- <- <- <-]. split; [|split; assumption]. cbn [app brace_text]. rewrite E, E1 at 1. reflexivity.
  - destruct (N.eqb_spec b 123) as [->|]; intros [= <- <- <- <-]; (split; [|split; assumption]);
      cbn [app brace_text]; rewrite E, E1 at 1; reflexivity.
Qed.
Lemma match_open_none x : match_open x = None <-> (forall c r, x = 64%N :: c :: r -> alnum c = false).
Proof.
  unfold TagParser.match_open. destruct x as [|a [|c r]].
  - split; [intros _ c r E; discriminate|reflexivity].
  - split; [intros _ c r E; discriminate|reflexivity].
  - destruct (N.eqb_spec a 64) as [->|Ha]; cbn [andb].
    + destruct (alnum c) eqn:Ec.
      * destruct (span (is_word uw) r) as [w r1]. destruct (match_attrs r1) as [at_ r2].
        split; [|intros H; specialize (H c r eq_refl); congruence].
        destruct r2 as [|b r3]; [discriminate|]. destruct (N.eqb b 123); discriminate.
      * split; [|reflexivity]. intros _ c' r' [= <- _]. exact Ec.
    + split; [|reflexivity]. intros _ c' r' [= Ha' _]. congruence.
Qed.

Lemma has_tag_cons c x : has_tag (c :: x) <-> (exists d r, c = 64%N /\ x = d :: r /\ alnum d = true) \/ has_tag x.
Proof.
  split.
  - intros (a & d & b & E & Hd). destruct a as [|a0 a]; cbn [app] in E; injection E as -> ->.
    + left. eauto.
    + right. exists a, d, b. auto.
  - intros [(d & r & -> & -> & Hd)|(a & d & b & -> & Hd)].
    + exists [], d, r. auto.
    + exists (c :: a), d, b. auto.
Qed.
Lemma has_tag_nil : ~ has_tag [].
Proof. intros (a & c & b & E & _). destruct a; discriminate. Qed.
Lemma match_open_has x m : match_open x = Some m -> has_tag x.
Proof.
  destruct m as [[[n a] o] r]. intros E. apply match_open_spec in E as (-> & (c & w & -> & Hc & _) & _).
  exists [], c. eexists. split; [reflexivity|exact Hc].
Qed.
Lemma search_open_unfold x : search_open x =
  match match_open x with
  | Some m => Some ([], m)
  | None => match x with
            | c :: r => match search_open r with Some (sofar, m) => Some (c :: sofar, m) | None => None end
            | [] => None
            end
  end.
Proof. destruct x; reflexivity. Qed.
Lemma search_open_none x : search_open x = None <-> ~ has_tag x.
Proof.
  induction x as [|c x IH]; rewrite search_open_unfold.
  - split; [intros _; apply has_tag_nil|reflexivity].
  - destruct (match_open (c :: x)) as [m|] eqn:E.
    + split; [discriminate|]. intros H. exfalso. apply H. eapply match_open_has. exact E.
    + rewrite has_tag_cons. assert (Hn : ~ exists d r, c = 64%N /\ x = d :: r /\ alnum d = true).
      { intros (d & r & -> & -> & Hd). apply (proj1 (match_open_none _)) with (c := d) (r := r) in E; [congruence|reflexivity]. }
      destruct (search_open x) as [[sofar m]|].
      * split; [discriminate|]. intros H. exfalso. assert (search_none : Some (sofar, m) = None) by (apply IH; tauto). discriminate.
      * split; [|reflexivity]. intros _. assert (~ has_tag x) by (apply IH; reflexivity). tauto.
Qed.
Lemma search_open_some x sofar m : search_open x = Some (sofar, m) <->
  exists y, x = sofar ++ y /\ match_open y = Some m /\
    (forall a b, sofar = a ++ b -> b <> [] -> match_open (b ++ y) = None).
Proof.
  revert sofar. induction x as [|c x IH]; intros sofar; rewrite search_open_unfold.
  - split.
    + cbn. discriminate.
    + intros (y & E & Hm & _). symmetry in E. apply app_eq_nil in E as [-> ->]. rewrite Hm. reflexivity.
  - destruct (match_open (c :: x)) as [m'|] eqn:E.
    + split.
      * intros [= <- <-]. exists (c :: x). split; [reflexivity|]. split; [exact E|].
        intros a b H Hb. symmetry in H. apply app_eq_nil in H as [_ ->]. congruence.
      * intros (y & Ey & Hm & Hn). destruct sofar as [|d sofar].
        -- cbn [app] in Ey. subst y. congruence.
        -- specialize (Hn [] (d :: sofar) eq_refl ltac:(discriminate)). rewrite <- Ey in Hn. congruence.
    + split.
      * intros H. destruct (search_open x) as [[s' m']|]; [|discriminate]. injection H as <- <-.
        destruct (proj1 (IH s') eq_refl) as (y & -> & Hm & Hn). exists y. split; [reflexivity|]. split; [exact Hm|].
        intros [|a0 a] b Eab Hb.
        -- cbn [app] in Eab. subst b. exact E.
        -- cbn [app] in Eab. injection Eab as _ Eab. eapply Hn; eauto.
      * intros (y & Ey & Hm & Hn). destruct sofar as [|d sofar].
        -- cbn [app] in Ey. subst y. congruence.
        -- cbn [app] in Ey. injection Ey as <- Ey.
           assert (Es : search_open x = Some (sofar, m)).
           { apply IH. exists y. split; [exact Ey|]. split; [exact Hm|]. intros a b Eab Hb.
             apply (Hn (c :: a) b); [rewrite Eab; reflexivity|exact Hb]. }
           rewrite Es. reflexivity.
Qed.
Lemma search_open_spec x sofar name attrs opened rest : search_open x = Some (sofar, (name, attrs, opened, rest)) ->
  x = sofar ++ [64%N] ++ name ++ attrs_text attrs ++ brace_text opened ++ rest /\ tag_name uw name /\
  written_attrs attrs /\ ~ has_tag sofar.
Proof.
  intros E. apply search_open_some in E as (y & -> & Hm & Hn).
  apply match_open_spec in Hm as (-> & H1 & H2). split; [reflexivity|]. split; [exact H1|]. split; [exact H2|].
  intros (a & c & b & -> & Hc). specialize (Hn a (64%N :: c :: b) eq_refl ltac:(discriminate)).
  eapply match_open_none in Hn; [|reflexivity]. congruence.
Qed.

(** ** Braces *)
Definition inside (l : nat) (i : str) : Prop :=
  opens i + l = closes i + 1 /\
  forall a b, i = a ++ b -> closes a < opens a + l /\ opens a + l < closes a + 10.

Lemma opens_cons c x : opens (c :: x) = (if N.eqb c 123 then 1 else 0) + opens x.
Proof. unfold opens. cbn [count_occ]. destruct (N.eq_dec c 123), (N.eqb_spec c 123); try congruence; reflexivity. Qed.
Lemma closes_cons c x : closes (c :: x) = (if N.eqb c 125 then 1 else 0) + closes x.
Proof. unfold closes. cbn [count_occ]. destruct (N.eq_dec c 125), (N.eqb_spec c 125); try congruence; reflexivity. Qed.
Lemma inside_nil l : inside l [] <-> l = 1.
Proof.
  split.
  - intros [H _]. exact H.
  - intros ->. split; [reflexivity|]. intros a b E. symmetry in E. apply app_eq_nil in E as [-> ->]. cbn. lia.
Qed.
(** the level after a character *)
Definition level_after (c : char) (l l' : nat) : Prop :=
  l' + (if N.eqb c 125 then 1 else 0) = l + (if N.eqb c 123 then 1 else 0).
Lemma inside_cons c i l : 1 <= l < 10 ->
  inside l (c :: i) <-> exists l', level_after c l l' /\ 1 <= l' < 10 /\ inside l' i.
Proof.
  intros Hl. unfold inside, level_after. rewrite opens_cons, closes_cons. split.
  - intros [H1 H2]. destruct (H2 [c] i eq_refl) as [H3 H4]. rewrite opens_cons, closes_cons in H3, H4. cbn in H3, H4.
    destruct (N.eqb_spec c 123) as [E0|E0], (N.eqb_spec c 125) as [E|E]; try congruence; cbn in *.
    + subst c. exists (S l). split; [lia|]. split; [lia|]. split; [lia|]. intros a b ->. specialize (H2 (123%N :: a) b eq_refl).
      rewrite opens_cons, closes_cons in H2. cbn in H2. lia.
    + subst c. exists (l - 1). split; [lia|]. split; [lia|]. split; [lia|]. intros a b ->. specialize (H2 (125%N :: a) b eq_refl).
      rewrite opens_cons, closes_cons in H2. cbn in H2. lia.
    + exists l. split; [lia|]. split; [lia|]. split; [lia|]. intros a b ->. specialize (H2 (c :: a) b eq_refl).
      rewrite opens_cons, closes_cons in H2. destruct (N.eqb_spec c 123), (N.eqb_spec c 125); try congruence. cbn in H2. lia.
  - intros (l' & H1 & H2 & H3 & H4). split; [lia|]. intros a b E. destruct a as [|d a].
    + cbn. lia.
    + cbn [app] in E. injection E as <- ->. specialize (H4 a b eq_refl). rewrite opens_cons, closes_cons. lia.
Qed.
Lemma close_brace_iff : forall x l i r, 1 <= l < 10 ->
  close_brace l x = Some (i, r) <-> x = i ++ 125%N :: r /\ inside l i.
Proof.
  induction x as [|c x IH]; intros l i r Hl; cbn [close_brace].
  - split; [discriminate|]. intros [E _]. destruct i; discriminate.
  - assert (Hstep : forall l', level_after c l l' -> 1 <= l' < 10 ->
      match close_brace l' x with Some (i0, r') => Some (c :: i0, r') | None => None end = Some (i, r) <->
      (exists i', i = c :: i' /\ x = i' ++ 125%N :: r /\ inside l (c :: i'))).
    { intros l' Ha Hl'. specialize (IH l'). split.
      - destruct (close_brace l' x) as [[i0 r0]|]; [|discriminate]. intros [= <- <-].
        destruct (proj1 (IH i0 r0 Hl') eq_refl) as [-> Hi]. exists i0. split; [reflexivity|]. split; [reflexivity|].
        apply inside_cons; [exact Hl|]. exists l'. auto.
      - intros (i' & -> & -> & Hi). apply inside_cons in Hi as (l'' & Ha' & Hl'' & Hi); [|exact Hl].
        assert (l'' = l') by (unfold level_after in *; lia). subst l''.
        rewrite (proj2 (IH i' r Hl') (conj eq_refl Hi)). reflexivity. }
    assert (Hfin : forall i', i = c :: i' -> x = i' ++ 125%N :: r -> c :: x = i ++ 125%N :: r) by (intros i' -> ->; reflexivity).
    destruct (N.eqb_spec c 125) as [->|H125].
    + destruct l as [|[|l]]; [lia| |].
      * split.
        -- intros [= <- <-]. split; [reflexivity|]. apply inside_nil. reflexivity.
        -- intros [E Hi]. destruct i as [|d i]; cbn [app] in E.
           ++ injection E as ->. reflexivity.
           ++ injection E as <- ->. apply inside_cons in Hi as (l' & Ha & Hl' & _); [|lia].
              unfold level_after in Ha. cbn in Ha. lia.
      * rewrite (Hstep (S l)); [|unfold level_after; cbn; lia|lia]. split.
        -- intros (i' & Hi1 & Hi2 & Hi3). split; [eauto|]. rewrite Hi1. exact Hi3.
        -- intros [E Hi]. destruct i as [|d i]; cbn [app] in E.
           ++ apply inside_nil in Hi. lia.
           ++ injection E as <- ->. exists i. auto.
    + assert (Hrev : c :: x = i ++ 125%N :: r -> inside l i -> exists i', i = c :: i' /\ x = i' ++ 125%N :: r /\ inside l (c :: i')).
      { intros E Hi. destruct i as [|d i]; cbn [app] in E; [congruence|]. injection E as <- ->. exists i. auto. }
      destruct (N.eqb_spec c 123) as [->|H123].
      * destruct (Nat.ltb_spec (S l) 10) as [Hlt|Hge].
        -- rewrite (Hstep (S l)); [|unfold level_after; cbn; lia|lia]. split.
           ++ intros (i' & Hi1 & Hi2 & Hi3). split; [eauto|]. rewrite Hi1. exact Hi3.
           ++ intros [E Hi]. auto.
        -- split; [discriminate|]. intros [E Hi]. destruct (Hrev E Hi) as (i' & -> & -> & Hi').
           apply inside_cons in Hi' as (l' & Ha & Hl' & _); [|lia]. unfold level_after in Ha. cbn in Ha. lia.
      * rewrite (Hstep l); [|unfold level_after; destruct (N.eqb_spec c 125), (N.eqb_spec c 123); try congruence; lia|lia]. split.
        -- intros (i' & Hi1 & Hi2 & Hi3). split; [eauto|]. rewrite Hi1. exact Hi3.
        -- intros [E Hi]. auto.
Qed.
Lemma inside_1 i : inside 1 i <-> balanced i /\ nesting 8 i.
Proof.
  unfold inside, balanced, nesting. split.
  - intros [H1 H2]. split; [split; [lia|]|]; intros a b E; specialize (H2 a b E); lia.
  - intros [[H1 H2] H3]. split; [lia|]. intros a b E. specialize (H2 a b E). specialize (H3 a b E). lia.
Qed.

(** ** Fuel *)
Lemma rest_shorter x sofar name attrs opened rest : search_open x = Some (sofar, (name, attrs, opened, rest)) ->
  length rest + 1 < length x.
Proof.
  intros E. apply search_open_spec in E as (-> & (c & w & -> & _) & _). rewrite !app_length. cbn [length]. lia.
Qed.
Lemma close_shorter x i r : close_brace 1 x = Some (i, r) -> length i < length x /\ length r < length x.
Proof.
  intros E. apply close_brace_iff in E as [-> _]; [|lia]. rewrite app_length. cbn [length]. lia.
Qed.
Lemma items_fuel : forall f f' x, length x < f -> length x < f' -> parse_items f x = parse_items f' x.
Proof.
  induction f as [|f IH]; intros f' x H H'; [lia|]. destruct f' as [|f']; [lia|]. cbn [TagParser.parse_items].
  destruct (search_open x) as [[sofar [[[name attrs] opened] rest]]|] eqn:E; [|reflexivity].
  apply rest_shorter in E. destruct opened.
  - destruct (close_brace 1 rest) as [[i r]|] eqn:Ec; [|reflexivity]. apply close_shorter in Ec. cbn [bind fst snd].
    rewrite (IH f' i) by lia. rewrite (IH f' r) by lia. reflexivity.
  - cbn [bind fst snd]. rewrite (IH f' []) by (cbn; lia). rewrite (IH f' rest) by lia. reflexivity.
Qed.
Lemma items_no_fuel_error : forall f x, length x < f -> (exists l, parse_items f x = Ok l) \/ parse_items f x = Raise TagError.
Proof.
  induction f as [|f IH]; intros x H; [lia|]. cbn [TagParser.parse_items].
  destruct (search_open x) as [[sofar [[[name attrs] opened] rest]]|] eqn:E; [|eauto].
  apply rest_shorter in E.
  assert (G : forall i r, length i < f -> length r < f ->
     (exists l, (do c <- (if verbatim name then Ok (Text i) else do l <- parse_items f i; Ok (simplify l));
      do items <- parse_items f r; Ok (text_item sofar ++ Tag name attrs c :: items)) = Ok l) \/
     (do c <- (if verbatim name then Ok (Text i) else do l <- parse_items f i; Ok (simplify l));
      do items <- parse_items f r; Ok (text_item sofar ++ Tag name attrs c :: items)) = Raise TagError).
  { intros i r Hi Hr. destruct (IH i Hi) as [[l ->]| ->]; destruct (IH r Hr) as [[l' ->]| ->]; destruct (verbatim name); cbn [bind]; eauto. }
  destruct opened.
  - destruct (close_brace 1 rest) as [[i r]|] eqn:Ec; [|right; reflexivity]. apply close_shorter in Ec. cbn [bind fst snd].
    apply G; lia.
  - cbn [bind fst snd]. apply G; cbn; lia.
Qed.

(** One step, without fuel *)
Definition items (x : str) : result (list content) := parse_items (S (length x)) x.
Lemma parse_text_items x : parse_text x = do l <- items x ; Ok (simplify l).
Proof. reflexivity. Qed.
Lemma items_step x : items x =
  match search_open x with
  | None => Ok (text_item x)
  | Some (sofar, (name, attrs, opened, rest)) =>
      do ir <- (if opened then match close_brace 1 rest with Some p => Ok p | None => Raise TagError end
                else Ok ([], rest)) ;
      do c <- (if verbatim name then Ok (Text (fst ir)) else parse_text (fst ir)) ;
      do l <- items (snd ir) ;
      Ok (text_item sofar ++ Tag name attrs c :: l)
  end.
Proof.
  unfold items at 1. cbn [TagParser.parse_items].
  destruct (search_open x) as [[sofar [[[name attrs] opened] rest]]|] eqn:E; [|reflexivity].
  apply rest_shorter in E. unfold TagParser.parse_text, items. destruct opened.
  - destruct (close_brace 1 rest) as [[i r]|] eqn:Ec; [|reflexivity]. apply close_shorter in Ec. cbn [bind fst snd].
    rewrite (items_fuel (length x) (S (length i)) i) by lia. rewrite (items_fuel (length x) (S (length r)) r) by lia. reflexivity.
  - cbn [bind fst snd]. rewrite (items_fuel (length x) (S (@length N [])) []) by (cbn; lia).
    rewrite (items_fuel (length x) (S (length rest)) rest) by lia. reflexivity.
Qed.
(** Induction on the length of a text *)
Lemma length_ind (P : str -> Prop) : (forall x, (forall y, length y < length x -> P y) -> P x) -> forall x, P x.
Proof.
  intros H x. remember (length x) as n. revert x Heqn. induction n as [n IH] using lt_wf_ind. intros x ->.
  apply H. intros y Hy. eapply IH; eauto.
Qed.
Lemma items_inv x l : items x = Ok l ->
  (l = text_item x /\ ~ has_tag x) \/
  exists sofar name attrs opened rest i r c l',
    x = sofar ++ [64%N] ++ name ++ attrs_text attrs ++ brace_text opened ++ rest /\ tag_name uw name /\
    written_attrs attrs /\ ~ has_tag sofar /\
    (if opened then close_brace 1 rest = Some (i, r) else i = [] /\ r = rest) /\
    (if verbatim name then c = Text i else parse_text i = Ok c) /\
    items r = Ok l' /\ l = text_item sofar ++ Tag name attrs c :: l' /\ length i < length x /\ length r < length x.
Proof.
  rewrite items_step. destruct (search_open x) as [[sofar [[[name attrs] opened] rest]]|] eqn:E.
  - intros H. right. pose proof (rest_shorter _ _ _ _ _ _ E) as Hlen. apply search_open_spec in E as (Ex & H1 & H2 & H3).
    assert (Hir : exists i r, (if opened then close_brace 1 rest = Some (i, r) else i = [] /\ r = rest) /\
       (do c <- (if verbatim name then Ok (Text i) else parse_text i); do l <- items r; Ok (text_item sofar ++ Tag name attrs c :: l)) = Ok l).
    { destruct opened.
      - destruct (close_brace 1 rest) as [[i r]|]; [|discriminate]. cbn [bind fst snd] in H. eauto.
      - cbn [bind fst snd] in H. eauto. }
    destruct Hir as (i & r & Hir & H').
    assert (Hl : length i < length x /\ length r < length x).
    { destruct opened; [apply close_shorter in Hir; lia|destruct Hir as [-> ->]; cbn; lia]. }
    destruct (if verbatim name then Ok (Text i) else parse_text i) as [c|] eqn:Ec; [|discriminate]. cbn [bind] in H'.
    destruct (items r) as [l'|] eqn:El; [|discriminate]. cbn [bind] in H'. apply Ok_inj in H'. subst l.
    exists sofar, name, attrs, opened, rest, i, r, c, l'. repeat (split; [assumption||reflexivity|]).
    split; [destruct (verbatim name); [apply Ok_inj in Ec; auto|exact Ec]|]. repeat (split; [assumption||reflexivity|]). exact Hl.
  - intros H. apply Ok_inj in H. left. split; [auto|]. apply search_open_none. exact E.
Qed.

Lemma source_items l : forall x, (exists xs, Forall2 source_of l xs /\ concat xs = x) -> source_of (simplify l) x.
Proof.
  intros x (xs & H & <-). destruct l as [|c [|c' l]]; cbn [simplify].
  - inversion H; subst. constructor.
  - inversion H as [|? ? ? ? H1 H2]; subst. inversion H2; subst. cbn [concat]. rewrite app_nil_r. exact H1.
  - constructor. exact H.
Qed.
Lemma text_item_source s : exists xs, Forall2 source_of (text_item s) xs /\ concat xs = s.
Proof.
  destruct s as [|c s]; [exists []; split; [constructor|reflexivity]|]. exists [c :: s]. split; [repeat constructor|]. cbn. rewrite app_nil_r. reflexivity.
Qed.
Lemma items_source : forall x l, items x = Ok l -> exists xs, Forall2 source_of l xs /\ concat xs = x.
Proof.
  induction x as [x IH] using length_ind. intros l E.
  apply items_inv in E as [[-> _]|(sofar & name & attrs & opened & rest & i & r & c & l' & -> & _ & _ & _ & Hir & Hc & Hl & -> & Li & Lr)].
  - apply text_item_source.
  - destruct (IH r Lr l' Hl) as (xs & Hxs & Ex). destruct (text_item_source sofar) as (ys & Hys & Ey).
    assert (Hci : source_of c i).
    { destruct (verbatim name); [subst c; constructor|]. rewrite parse_text_items in Hc.
      destruct (items i) as [li|] eqn:Ei; [|discriminate]. cbn [bind] in Hc. apply Ok_inj in Hc. subst c.
      apply source_items. apply (IH i Li li Ei). }
    assert (Hrest : exists z, source_of (Tag name attrs c) z /\ z ++ r = [64%N] ++ name ++ attrs_text attrs ++ brace_text opened ++ rest).
    { destruct opened.
      - apply close_brace_iff in Hir as [-> _]; [|lia]. eexists. split; [apply src_tag; exact Hci|].
        change (lit "@") with [64%N]. change (lit "{") with [123%N]. change (lit "}") with [125%N]. cbn [brace_text].
        rewrite <- !app_assoc. reflexivity.
      - destruct Hir as [-> ->]. assert (c = Text []).
        { destruct (verbatim name); [exact Hc|]. change (parse_text []) with (@Ok content (Text [])) in Hc. apply Ok_inj in Hc. auto. }
        subst c. eexists. split; [apply src_bare_tag|]. change (lit "@") with [64%N]. cbn [brace_text app].
        rewrite <- !app_assoc. reflexivity. }
    destruct Hrest as (z & Hz & Ez). exists (ys ++ z :: xs). split.
    + apply Forall2_app; [exact Hys|]. constructor; assumption.
    + rewrite concat_app. cbn [concat]. rewrite Ex, Ey, Ez. reflexivity.
Qed.

Lemma recognised_items l : Forall (recognised verbatim) l -> recognised verbatim (simplify l).
Proof.
  intros H. destruct l as [|c [|c' l]]; cbn [simplify].
  - constructor. apply has_tag_nil.
  - apply Forall_cons_iff in H. tauto.
  - constructor. exact H.
Qed.
Lemma text_item_recognised s : ~ has_tag s -> Forall (recognised verbatim) (text_item s).
Proof. intros H. destruct s; [constructor|]. constructor; [|constructor]. constructor. exact H. Qed.
Lemma items_recognised : forall x l, items x = Ok l -> Forall (recognised verbatim) l.
Proof.
  induction x as [x IH] using length_ind. intros l E.
  apply items_inv in E as [[-> Hn]|(sofar & name & attrs & opened & rest & i & r & c & l' & _ & _ & _ & Hs & _ & Hc & Hl & -> & Li & Lr)].
  - apply text_item_recognised. exact Hn.
  - apply Forall_app. split; [apply text_item_recognised; exact Hs|]. constructor; [|apply (IH r Lr); exact Hl].
    destruct (verbatim name) eqn:Ev; [subst c; apply rec_verbatim; exact Ev|]. apply rec_tag; [exact Ev|].
    rewrite parse_text_items in Hc. destruct (items i) as [li|] eqn:Ei; [|discriminate]. cbn [bind] in Hc. apply Ok_inj in Hc. subst c.
    apply recognised_items. apply (IH i Li li Ei).
Qed.
End TagParserProofs.

(** ** group_strings changes nothing (content.py:155) *)
Fixpoint to_node (id : str -> option str -> nat) (c : content) : node :=
  match c with
  | Text s => NStr s
  | Tag n a c => NTag (id n a) (to_node id c)
  | Items l => NList (map (to_node id) l)
  end.
Section Grouping.
Variables (uw : char -> bool) (verbatim : str -> bool) (id : str -> option str -> nat).
(** items: no empty strings, no neighbouring strings *)
Fixpoint alternating (p : bool) (l : list content) : Prop :=
  match l with
  | nil => True
  | Text s :: r => p = false /\ s <> [] /\ alternating true r
  | Tag _ _ _ :: r => alternating false r
  | Items _ :: r => False
  end.
Inductive tidy : content -> Prop :=
| tidy_text s : tidy (Text s)
| tidy_tag n a c : tidy c -> c <> Items [] -> tidy (Tag n a c)
| tidy_items l : Forall tidy l -> alternating false l -> tidy (Items l).
Lemma alternating_weaken l : alternating true l -> alternating false l.
Proof. destruct l as [|[s|n a c|l'] l]; cbn; intuition congruence. Qed.
Lemma tidy_simplify l : Forall tidy l -> alternating false l -> tidy (simplify l) /\ simplify l <> Items [].
Proof.
  intros H1 H2. destruct l as [|c [|c' l]]; cbn [simplify].
  - split; [constructor|discriminate].
  - apply Forall_cons_iff in H1 as [H1 _]. split; [exact H1|]. destruct c; cbn in H2; try discriminate. destruct H2.
  - split; [constructor; assumption|discriminate].
Qed.
Lemma items_tidy : forall x l, items uw verbatim x = Ok l -> Forall tidy l /\ alternating false l.
Proof.
  induction x as [x IH] using length_ind. intros l E.
  assert (Hti : forall s, Forall tidy (text_item s)) by (intros [|c s]; repeat constructor).
  apply items_inv in E as [[-> _]|(sofar & name & attrs & opened & rest & i & r & c & l' & _ & _ & _ & _ & _ & Hc & Hl & -> & Li & Lr)].
  - split; [apply Hti|]. destruct x; cbn; [exact I|]. repeat split; discriminate.
  - destruct (IH r Lr l' Hl) as [T A]. split.
    + apply Forall_app. split; [apply Hti|]. constructor; [|exact T].
      destruct (verbatim name); [subst c; constructor; [constructor|discriminate]|].
      rewrite parse_text_items in Hc. destruct (items uw verbatim i) as [li|] eqn:Ei; [|discriminate]. cbn [bind] in Hc. apply Ok_inj in Hc. subst c.
      destruct (IH i Li li Ei) as [T' A']. destruct (tidy_simplify li T' A') as [T2 A2]. constructor; assumption.
    + destruct sofar; cbn; [exact A|]. repeat split; [discriminate|exact A].
Qed.
Lemma tidy_normal : forall c, tidy c -> normal (to_node id c).
Proof.
  induction c as [s|n a c IH|l IH] using content_ind'; intros Ht; inversion Ht; subst; cbn [to_node].
  - constructor.
  - constructor. auto.
  - constructor.
    + apply Forall_map. rewrite Forall_forall in *. auto.
    + clear Ht IH. generalize dependent H1. generalize false as p.
      induction H0 as [|c l Hc _ IHl]; intros p Ha; cbn [map]; [constructor|].
      destruct c as [s|n a c|l']; cbn in Ha; [| |destruct Ha].
      * destruct Ha as (_ & Hs & Ha). constructor; [|eapply IHl; exact Ha]. cbn. destruct (eqb_spec s []); [congruence|reflexivity].
      * constructor; [|eapply IHl; exact Ha]. inversion Hc; subst. destruct c as [s|n' a' c'|[|c' l']]; cbn; congruence.
    + clear Ht IH. generalize dependent H1. generalize false as p.
      induction H0 as [|c l Hc _ IHl]; intros p Ha; cbn [map]; [constructor|].
      destruct c as [s|n a c|l']; cbn in Ha |- *; [|eapply IHl; exact Ha|destruct Ha].
      destruct Ha as (Hp & Hs & Ha). repeat split; auto.
Qed.
(** content.py:155 on the list of items *)
Lemma group_items x l : items uw verbatim x = Ok l -> group_strings (NList (map (to_node id) l)) = NList (map (to_node id) l).
Proof.
  intros E. destruct (items_tidy x l E) as [T A]. apply normal_fixed. change (normal (to_node id (Items l))).
  apply tidy_normal. constructor; assumption.
Qed.
End Grouping.

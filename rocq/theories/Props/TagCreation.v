(** C77: from the text of a document to its tags. *)
From Coq Require Import List Bool Arith NArith Lia Permutation.
From Verif.Base Require Import Str StrFacts Dict DictFacts PyText PyTextFacts Result.
From Verif.Model Require Import Attributes Typography Paragraphs Macros TagParser TagTree TagCreation.
From Verif.Spec Require Import Typography Paragraphs TagParser TagTree TagCreation.
From Verif.Proof Require Import Attributes Typography Paragraphs TagParser TagCreation.
Import ListNotations.

Section Props.
Context (uw : char -> bool) (verbatim typo include pars : str -> bool) (mac : str -> str).
Context (Huw : marks_are_no_words uw) (Hp : usual_paragraphs verbatim typo include pars) (Hmac : forall s, mac s = s).
Notation make := (make uw verbatim typo include pars mac).
Notation parse_text := (parse_text uw verbatim).
Notation done := (recognised (fun _ => false)).
Notation events := (events typo).

Lemma parsed_nested x c : parse_text x = Ok c -> nested c <= 10.
Proof.
  rewrite parse_text_items. destruct (items uw verbatim x) as [l|] eqn:E; [|discriminate]. cbn [bind]. intros H. apply Ok_inj in H. subst c.
  apply nested_simplify. eapply items_nested_10. exact E.
Qed.
Lemma made n x c0 fuel : verbatim n = false -> parse_text x = Ok c0 -> done c0 -> length x + 2 <= fuel ->
  make fuel n (Text x) = Ok (finish_tag uw typo include pars n (finish uw typo include pars c0)).
Proof.
  intros Hv Hx Hd Hf. eapply make_finish; eauto; [unfold parsed; rewrite Hv; exact Hx|]. eapply parsed_nested, Hx.
Qed.

(** The tag of a document is made whenever its text can be read, and it has the tags, the letters and
    the literal texts that the text says ([c0], see C20 and C21), each once and in order, whatever
    paragraphs are put around them. *)
Theorem C77_document (n x : str) (c0 : content) (fuel : nat) :
  verbatim n = false -> typo n = true -> parse_text x = Ok c0 -> done c0 -> length x + 2 <= fuel ->
  exists c, make fuel n (Text x) = Ok c /\ events false c = events false c0.
Proof.
  intros Hv Ht Hx Hd Hf. eexists. split; [apply (made n x c0 fuel); assumption|].
  rewrite events_finish_tag with (verbatim := verbatim) (include := include) (pars := pars) by assumption. eapply events_finish; eassumption.
Qed.

(** The letters of the text target: those of the text without its markup. *)
Lemma letters_plain : forall c e, exists t, filter letter t = filter letter (plain_text c) /\
  concat (map (fun e => match e with Char c => [c] | _ => [] end) (events e c)) = t.
Proof.
  assert (Hm : forall s, concat (map (fun e => match e with Char c => [c] | _ => [] end) (map Char s)) = s)
    by (intros s; induction s as [|a s IH]; [reflexivity|]; cbn; rewrite IH; reflexivity).
  assert (Hff : forall s, filter letter (filter letter s) = filter letter s).
  { induction s as [|a s IH]; [reflexivity|]. cbn [filter]. destruct (letter a) eqn:E; [|exact IH]. cbn [filter]. rewrite E, IH. reflexivity. }
  induction c as [s|n a c IH|l IH] using content_ind'; intros e; cbn [Spec.TagCreation.events plain_text].
  - rewrite Hm. eexists. split; [|reflexivity]. destruct e; [reflexivity|apply Hff].
  - destruct (added n a); [apply IH|]. destruct (IH (negb (typo n))) as (t & E1 & E2). exists t. split; [exact E1|].
    cbn [map concat]. rewrite map_app, concat_app. cbn. rewrite !app_nil_r. exact E2.
  - induction IH as [|i l Hi _ IHl]; [exists []; split; reflexivity|]. destruct (Hi e) as (t & E1 & E2). destruct IHl as (t' & E1' & E2').
    exists (t ++ t'). cbn [map concat]. split; [rewrite !filter_app, E1, E1'; reflexivity|]. rewrite map_app, concat_app, E2, E2'. reflexivity.
Qed.
Theorem C77_text (n x : str) (c0 c : content) (fuel : nat) :
  verbatim n = false -> typo n = true -> parse_text x = Ok c0 -> done c0 -> length x + 2 <= fuel -> make fuel n (Text x) = Ok c ->
  filter letter (plain_text c) = filter letter (plain_text c0).
Proof.
  intros Hv Ht Hx Hd Hf Hc. destruct (C77_document n x c0 fuel Hv Ht Hx Hd Hf) as (c' & Hc' & He). rewrite Hc in Hc'. apply Ok_inj in Hc'. subst c'.
  destruct (letters_plain c false) as (t & E1 & E2). destruct (letters_plain c0 false) as (t0 & E3 & E4). rewrite <- E1, <- E3, <- E2, <- E4, He. reflexivity.
Qed.

(** Without paragraphs, a tag is what its text says with the typography set: once, however deep the
    tags are nested. *)
Theorem C77_exact (n x : str) (c0 : content) (fuel : nat) :
  verbatim n = false -> parse_text x = Ok c0 -> done c0 -> length x + 2 <= fuel -> Forall (fun m => pars m = false) (n :: names c0) ->
  make fuel n (Text x) = Ok (typeset uw typo (typo n) c0).
Proof.
  intros Hv Hx Hd Hf Hn. inversion Hn as [|? ? H1 H2]; subst. rewrite (made n x c0 fuel) by assumption. f_equal.
  unfold finish_tag. rewrite H1. symmetry. eapply finish_typeset; eassumption.
Qed.
(** The content of a verbatim tag is its text. *)
Theorem C77_verbatim (n x : str) (fuel : nat) : 1 <= fuel -> verbatim n = true -> typo n = false -> make fuel n (Text x) = Ok (Text x).
Proof.
  intros Hf Hv Ht. destruct fuel as [|f]; [lia|]. cbn [TagCreation.make]. rewrite Hv, Ht, Hmac. cbn [bind].
  destruct (pars n) eqn:E; [|reflexivity]. destruct Hp as (_ & _ & _ & _ & H). destruct (H n E). congruence.
Qed.

(** A text that cannot be read, because a tag in it is not closed, makes no tag. *)
Theorem C77_unclosed (n x : str) (c : content) (fuel : nat) :
  verbatim n = false -> make fuel n (Text x) = Ok c -> exists c0, parse_text x = Ok c0 /\ source_of c0 x.
Proof.
  intros Hv H. eapply make_ok in H as [H|[c0 H]]; [congruence| |exact Hmac]. exists c0. split; [exact H|]. apply (Props.TagParser.C20_text_preserved _ _ _ _ H).
Qed.

(** The items of the text, with their typography set, are arranged in paragraphs: what stands between
    breaks or tags outside of paragraphs is a paragraph, and only white space is left out. *)
Theorem C77_layout (n x : str) (c0 c : content) (fuel : nat) :
  pars n = true -> parse_text x = Ok c0 -> done c0 -> length x + 2 <= fuel -> (forall m a d, c0 <> Tag m a d) ->
  make fuel n (Text x) = Ok c ->
  exists d, Forall2 (set_item uw) (elems c0) d /\ arranged include false (pieces_of d) (elems c).
Proof.
  intros Hn Hx Hd Hf Ht H. pose proof Hp as (_ & _ & _ & _ & Hpt). destruct (Hpt n Hn) as [_ Hv].
  rewrite (made n x c0 fuel Hv Hx Hd Hf) in H. apply Ok_inj in H. subst c. eapply arranged_finish; eauto.
  rewrite parse_text_items in Hx. destruct (items uw verbatim x) as [l|] eqn:E; [|discriminate Hx]. cbn [bind] in Hx. apply Ok_inj in Hx. subst c0.
  apply flat_simplify. eapply items_flat, E.
Qed.

(** A text without tags becomes paragraphs, one for each text between breaks, in order, once its
    typography is set. *)
Lemma apart_psplit ps x : apart ps x -> psplit x ps /\ exists c r, x = c :: r /\ is_space c = false.
Proof.
  assert (N : forall c, is_space c = false -> rx_space c = false).
  { intros c H. destruct (rx_space c) eqn:E; [|reflexivity]. apply rx_space_space in E. congruence. }
  induction 1 as [p (H1 & H2 & H3)|p u ps x (H1 & (c & r & -> & Hc) & H3) [Hu Hb] _ [IH (d & q & -> & Hd)]].
  - split; [constructor; exact H1|exact H2].
  - split; [|exists c, (r ++ u ++ d :: q); split; [reflexivity|exact Hc]].
    apply ps_cons; try assumption.
    + intros e k E. destruct H3 as (e' & k' & E' & He'). rewrite E in E'. apply app_inj_tail in E' as [_ ->]. apply N, He'.
    + intros e k E. injection E as <- _. apply N, Hd.
Qed.
Definition par (p : str) : content := Tag (lit "p") (Some []) (Text p).
Lemma add_par_texts : forall ps, Forall (fun p => p <> []) ps -> ps <> [] ->
  forall r, fst (add_texts [] ps) ++ close_sub (snd (add_texts [] ps)) ++ r = map (fun p => Items [Text p]) ps ++ r.
Proof.
  induction ps as [|p ps IH]; intros Hn Hne r; [congruence|]. inversion Hn as [|? ? H1 H2]; subst. rewrite add_texts_cons.
  assert (E : text_of_nonempty p = [Text p]) by (destruct p; [congruence|reflexivity]). rewrite E. destruct ps as [|q ps]; [reflexivity|].
  cbn [fst snd map app close_sub]. f_equal. apply (IH H2). discriminate.
Qed.
Theorem C77_paragraphs (n x : str) (ps : list str) (fuel : nat) :
  pars n = true -> ~ has_tag x -> apart ps (typography uw x) -> length x + 2 <= fuel ->
  make fuel n (Text x) = Ok (one_or_list (map par ps)).
Proof.
  intros Hn Hx Ha Hf. destruct Hp as (_ & _ & _ & _ & Hpt). destruct (Hpt n Hn) as [Ht Hv].
  rewrite (made n x (Text x) fuel Hv); [|apply Props.TagParser.C20_no_tag, Hx|constructor; exact Hx|exact Hf]. f_equal.
  unfold finish_tag. rewrite Hn, Ht. cbn [finish set_typography]. rewrite pure_eq. cbn [elems grouped_from].
  destruct (apart_psplit _ _ Ha) as [Hs _]. rewrite (psplit_split _ _ Hs).
  assert (Hps : Forall par_text ps) by (clear - Ha; induction Ha; constructor; auto).
  assert (Hne : ps <> []) by (destruct Ha; discriminate).
  assert (E : (let '(gs, sub') := add_texts [] ps in gs ++ close_sub sub') = map (fun p => Items [Text p]) ps).
  { pose proof (add_par_texts ps) as G. destruct (add_texts [] ps) as [gs sub']. cbn [fst snd] in G. specialize (G ltac:(eapply Forall_impl; [|exact Hps]; intros p (_ & (c & r & -> & _) & _); discriminate) Hne []).
    rewrite !app_nil_r in G. exact G. }
  rewrite E. f_equal. clear - Hps. induction Hps as [|p ps H _ IH]; [reflexivity|]. cbn [map]. unfold cleaned in *. cbn [filter forallb blank_text].
  assert (eqb (strip p) [] = false) as ->.
  { apply eqb_neq. intros E. apply strip_blank in E. destruct H as (_ & (c & r & -> & Hc) & _). inversion E. congruence. }
  cbn [andb negb map mark_pars one_or_list]. rewrite IH. reflexivity.
Qed.

(** The entries of a context that are to be tags become tags, in whatever order that happens; all other
    entries stay. *)
Theorem C77_context (fuel : nat) : forall (ks : list str) (context context' : dict str value),
  NoDup ks -> process_tags uw verbatim typo include pars mac fuel ks context = Ok context' ->
  forall k, match lookup k context with
            | Some (VText s) => if mem k ks then exists c, make fuel k (Text s) = Ok c /\ lookup k context' = Some (VTag k c)
                                else lookup k context' = Some (VText s)
            | o => lookup k context' = o
            end.
Proof.
  induction ks as [|q ks IH]; intros context context' Hk E k.
  - cbn in E. apply Ok_inj in E. subst context'. destruct (lookup k context) as [[s|m c|m]|]; reflexivity.
  - inversion Hk as [|? ? Hq Hk']; subst. cbn [process_tags] in E.
    assert (Hmem : forall b, mem k ks = b -> mem k (q :: ks) = (eqb k q || b)%bool) by (intros b <-; reflexivity).
    destruct (lookup q context) as [v|] eqn:Eq; [|discriminate E]. destruct v as [s|m c|m].
    + destruct (make fuel q (Text s)) as [c|] eqn:Ec; [|discriminate E]. cbn [bind] in E. specialize (IH _ _ Hk' E k).
      destruct (eqb_spec k q) as [->|Hne].
      * rewrite lookup_set_eq in IH. rewrite Eq, (Hmem _ eq_refl). cbn [orb]. exists c. split; [exact Ec|exact IH].
      * rewrite lookup_set_neq in IH by congruence. rewrite (Hmem _ eq_refl). exact IH.
    + specialize (IH _ _ Hk' E k). destruct (lookup k context) as [[s'|m' c'|m']|] eqn:El; try exact IH.
      rewrite (Hmem _ eq_refl). destruct (eqb_spec k q) as [->|Hne]; [congruence|exact IH].
    + specialize (IH _ _ Hk' E k). destruct (lookup k context) as [[s'|m' c'|m']|] eqn:El; try exact IH.
      rewrite (Hmem _ eq_refl). destruct (eqb_spec k q) as [->|Hne]; [congruence|exact IH].
Qed.
Theorem C77_context_order (fuel : nat) (ks ks' : list str) (context r r' : dict str value) :
  NoDup ks -> Permutation ks ks' ->
  process_tags uw verbatim typo include pars mac fuel ks context = Ok r ->
  process_tags uw verbatim typo include pars mac fuel ks' context = Ok r' ->
  forall k, lookup k r = lookup k r'.
Proof.
  intros Hk Hperm E E' k. pose proof (C77_context fuel ks context r Hk E k) as H.
  pose proof (C77_context fuel ks' context r' (Permutation_NoDup Hperm Hk) E' k) as H'.
  assert (Em : mem k ks = mem k ks').
  { destruct (mem k ks) eqn:A, (mem k ks') eqn:B; try reflexivity; exfalso.
    - apply mem_In in A. apply (Permutation_in _ Hperm) in A. apply mem_In in A. congruence.
    - apply mem_In in B. apply (Permutation_in _ (Permutation_sym Hperm)) in B. apply mem_In in B. congruence. }
  destruct (lookup k context) as [[s|m c|m]|]; try congruence.
  rewrite Em in H. destruct (mem k ks'); [|congruence]. destruct H as (c & H1 & H2). destruct H' as (c' & H1' & H2'). congruence.
Qed.
End Props.

(** A context without macros (entries whose names begin with '@') leaves every text as it is: the
    condition on [mac] above. *)
Theorem C77_no_macros Obj uw isnone (none : Obj) attr show (dicts : list (dict str Obj)) (s : str) :
  isnone none = true -> (forall p, attr none (64%N :: p) = None) ->
  (forall d k, In d dicts -> In k (keys d) -> hd_error k <> Some 64%N) ->
  replace_macros uw isnone none attr show 2 s dicts = Some s.
Proof.
  intros Hnone Hattr Hd.
  assert (Hfind : forall p, find_dicts (64%N :: p) dicts = None).
  { intros p. induction dicts as [|d ds IH]; [reflexivity|]. cbn [find_dicts].
    destruct (lookup (64%N :: p) d) as [v|] eqn:E.
    - exfalso. apply lookup_In in E. apply (Hd d (64%N :: p) (or_introl eq_refl)); [|reflexivity]. unfold keys. apply in_map_iff. exists (64%N :: p, v). split; [reflexivity|exact E].
    - apply IH. intros d' k H. apply Hd. right. exact H. }
  assert (Hsub : forall m w, substitute isnone none attr show dicts (64%N :: m) w = w).
  { intros m w. unfold substitute.
    assert (Es : exists p ps, split_c dot (64%N :: m) = (64%N :: p) :: ps).
    { cbn [split_c]. replace (N.eqb 64 dot) with false by reflexivity. destruct (split_c dot m) as [|p ps]; eexists; eexists; reflexivity. }
    destruct Es as (p & ps & ->). cbn [resolve]. rewrite Hnone, Hfind, Hattr, Hnone. reflexivity. }
  assert (Hpass : forall fuel x, length x <= fuel -> fst (subn uw isnone none attr show fuel dicts x) = x).
  { induction fuel as [|fuel IH]; intros x Hl; [destruct x; [reflexivity|cbn in Hl; lia]|]. destruct x as [|c x]; [reflexivity|]. cbn [subn].
    destruct (match_macro uw (c :: x)) as [[[macro whole] rest]|] eqn:E.
    - assert (Ew : c :: x = whole ++ rest /\ whole <> [] /\ exists m, macro = 64%N :: m).
      { unfold match_macro in E. destruct (N.eqb_spec c at_sign) as [->|]; [|discriminate E].
        destruct (span_decomp (macro_char uw) x) as (Ex & _ & _). destruct (span (macro_char uw) x) as [[|m0 m] r]; [discriminate E|]. cbn [fst snd] in Ex.
        assert (G : Some (at_sign :: m0 :: m, at_sign :: m0 :: m, r) = Some (macro, whole, rest) -> at_sign :: x = whole ++ rest /\ whole <> [] /\ exists m, macro = 64%N :: m).
        { intros [= <- <- <-]. split; [rewrite Ex; reflexivity|]. split; [discriminate|eauto]. }
        destruct r as [|b r1]; [exact (G E)|]. destruct (N.eqb_spec b 123) as [->|]; [|exact (G E)].
        destruct (span_decomp rx_space r1) as (Ex1 & _ & _). destruct (span rx_space r1) as [ws [|e r2]]; [exact (G E)|]. cbn [fst snd] in Ex1.
        destruct (N.eqb_spec e 125) as [->|]; [|exact (G E)]. injection E as <- <- <-. split; [rewrite Ex, Ex1; cbn [app]; rewrite <- app_assoc; cbn [app]; rewrite <- app_assoc; reflexivity|].
        split; [discriminate|eauto]. }
      destruct Ew as (Ew & Hw & m & ->). rewrite Hsub. specialize (IH rest). destruct (subn uw isnone none attr show fuel dicts rest) as [t k]. cbn [fst] in *.
      rewrite IH; [symmetry; exact Ew|]. apply (f_equal (@length _)) in Ew. rewrite app_length in Ew. cbn [length] in *. destruct whole; [congruence|]. cbn [length] in Ew. lia.
    - specialize (IH x). destruct (subn uw isnone none attr show fuel dicts x) as [t k]. cbn [fst] in *. rewrite IH; [reflexivity|]. cbn in Hl. lia. }
  unfold replace_macros, pass. pose proof (Hpass (length s) s (Nat.le_refl _)) as E. destruct (subn uw isnone none attr show (length s) dicts s) as [t k] eqn:Es.
  cbn [fst] in E. subst t. cbn [macro_loop]. destruct (Nat.ltb 0 k && Nat.ltb 0 k)%bool; [|reflexivity]. unfold pass. rewrite Es.
  destruct (Nat.ltb 0 k && Nat.ltb k k)%bool eqn:E; [|reflexivity]. apply andb_true_iff in E as [_ E]. apply Nat.ltb_lt in E. lia.
Qed.

(** ** Concrete classes *)
Definition no_uw (c : char) : bool := false.
Definition ex_verbatim (n : str) : bool := mem n [lit "code"; lit "verb"].
Definition ex_typo (n : str) : bool := negb (mem n [lit "code"; lit "verb"]).
Definition ex_include (n : str) : bool := negb (mem n [lit "p"; lit "verb"; lit "section"; lit "featurebox"]).
Definition ex_pars (n : str) : bool := mem n [lit "body"; lit "featurebox"].
Definition ex_make := make no_uw ex_verbatim ex_typo ex_include ex_pars (fun s => s).
Lemma ex_usual : usual_paragraphs ex_verbatim ex_typo ex_include ex_pars.
Proof.
  repeat split; try reflexivity; unfold ex_pars, ex_typo, ex_verbatim in *; cbn [mem existsb] in *; rewrite ?orb_false_r in *;
    apply orb_true_iff in H as [H|H]; apply eqb_eq in H; subst n; reflexivity.
Qed.
Lemma ex_marks : marks_are_no_words no_uw.
Proof. intros c _. reflexivity. Qed.

(** A document: the typography is set outside of the code, blank lines end paragraphs, the section
    stands by itself, and the feature box has its own paragraphs. *)
Definition nl2 : str := [10%N; 10%N].
Definition ex_source : str :=
  lit "It is @b{bold -- text}." ++ nl2 ++ lit "@section{One}" ++ nl2 ++ lit "Use @code{a--b}!" ++ nl2 ++ lit "@featurebox{A" ++ nl2 ++ lit "B}".
Example C77_ex :
  (exists c0, parse_text no_uw ex_verbatim ex_source = Ok c0 /\ recognised (fun _ => false) c0) /\
  ex_make 100 (lit "body") (Text ex_source) =
    Ok (Items [Tag (lit "p") (Some []) (Items [Text (lit "It is "); Tag (lit "b") None (Text (lit "bold" ++ [8211%N] ++ lit "text")); Text (lit ".")]);
               Tag (lit "section") None (Text (lit "One"));
               Tag (lit "p") (Some []) (Items [Text (lit "Use "); Tag (lit "code") None (Text (lit "a--b")); Text (lit "!")]);
               Tag (lit "featurebox") None (Items [par (lit "A"); par (lit "B")])]).
Proof.
  split.
  - assert (H : exists c0, parse_text no_uw ex_verbatim ex_source = Ok c0) by (eexists; vm_compute; reflexivity).
    destruct H as [c0 H]. exists c0. split; [exact H|]. vm_compute in H. apply Ok_inj in H. subst c0.
    assert (N : forall s, mem 64%N s = false -> ~ has_tag s).
    { intros s E (a & c & b & -> & _). rewrite (proj2 (mem_In _ _)) in E; [discriminate E|]. apply in_or_app. right. left. reflexivity. }
    repeat first [apply rec_items; repeat apply Forall_cons; [..|apply Forall_nil] | apply rec_tag; [reflexivity|] | apply rec_text, N; reflexivity].
  - vm_compute. reflexivity.
Qed.

(** ** Findings *)
(** A paragraph that begins with a dash is joined to the paragraph before it: the typography comes
    first, and takes the white space around the dash, with the blank line in it. *)
Theorem C77_dash_refuted :
  ~ (forall (x : str) (ps : list str) (c : content), apart ps x -> ex_make (length x + 2) (lit "body") (Text x) = Ok c -> length (elems c) = length ps).
Proof.
  intros H. specialize (H (lit "So?" ++ nl2 ++ lit "-- Yes.") [lit "So?"; lit "-- Yes."] (par (lit "So?" ++ [8211%N] ++ lit "Yes."))).
  assert (P : forall p, mem 10%N p = false -> forall c r d q, p = c :: r -> p = q ++ [d] -> is_space c = false -> is_space d = false -> par_text p).
  { intros p Hp c r d q E1 E2 Hc Hd. split; [|split; eauto]. intros (a & u & b & E & _). rewrite (proj2 (mem_In _ _)) in Hp; [discriminate Hp|]. rewrite E. apply in_or_app. right. left. reflexivity. }
  specialize (H ltac:(apply ap_cons with (u := nl2);
    [eapply P with (q := lit "So"); reflexivity
    |split; [repeat constructor|exists [], [], []; split; [reflexivity|constructor]]
    |apply ap_one; eapply P with (q := lit "-- Yes"); reflexivity])).
  specialize (H ltac:(vm_compute; reflexivity)). discriminate H.
Qed.

(** The text of a verbatim tag in a paragraph is read as markup, so that a document does not always
    have the tags that its text says (see also C53). *)
Theorem C77_verbatim_refuted :
  ~ (forall (x : str) (c0 c : content), parse_text no_uw ex_verbatim x = Ok c0 -> ex_make (length x + 2) (lit "body") (Text x) = Ok c ->
       events ex_typo false c = events ex_typo false c0).
Proof.
  intros H. specialize (H (lit "Use @code{@property} here") _ _ eq_refl eq_refl). vm_compute in H. discriminate H.
Qed.

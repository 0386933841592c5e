(** C20, C21, C53: parsing tags. *)
From Coq Require Import List Bool Arith NArith Lia.
From Verif.Base Require Import Str StrFacts ListFacts PyText Result.
From Verif.Model Require Import Attributes StringUtils TagParser.
From Verif.Spec Require Import TagParser.
From Verif.Proof Require Import Attributes StringUtils TagParser.
Import ListNotations.

(** C20: when a text is parsed, the result is written as that text: every
    character outside the markup of tags is kept, in order, and so are the
    names, attributes and contents of the tags. *)
Theorem C20_text_preserved :
  forall uw verbatim (x : str) (c : content), parse_text uw verbatim x = Ok c -> source_of c x.
Proof.
  intros uw verbatim x c H. rewrite parse_text_items in H. destruct (items uw verbatim x) as [l|] eqn:E; [|discriminate].
  cbn [bind] in H. apply Ok_inj in H. subst c. apply source_items. eapply items_source. exact E.
Qed.

(** C20: a text parses to itself exactly if it has no tag. *)
Theorem C20_no_tag :
  forall uw verbatim (x : str), parse_text uw verbatim x = Ok (Text x) <-> ~ has_tag x.
Proof.
  intros uw verbatim x. split.
  - intros H. rewrite parse_text_items in H. destruct (items uw verbatim x) as [l|] eqn:E; [|discriminate].
    cbn [bind] in H. apply Ok_inj in H. apply items_recognised in E. apply recognised_items in E. rewrite H in E. inversion E. assumption.
  - intros H. rewrite parse_text_items, items_step. rewrite (proj2 (search_open_none uw verbatim x) H). cbn [bind].
    destruct x; reflexivity.
Qed.

(** C20: no tag is overlooked: no text of the result has the beginning of a
    tag, except the literal content of verbatim tags. *)
Theorem C20_all_tags_found :
  forall uw verbatim (x : str) (c : content), parse_text uw verbatim x = Ok c -> recognised verbatim c.
Proof.
  intros uw verbatim x c H. rewrite parse_text_items in H. destruct (items uw verbatim x) as [l|] eqn:E; [|discriminate].
  cbn [bind] in H. apply Ok_inj in H. subst c. apply recognised_items. eapply items_recognised. exact E.
Qed.

(** C20: parsing always ends, with a content or with a TagError. *)
Theorem C20_total :
  forall uw verbatim (x : str),
    (exists c, parse_text uw verbatim x = Ok c) \/ parse_text uw verbatim x = Raise TagError.
Proof.
  intros uw verbatim x. rewrite parse_text_items. unfold items.
  destruct (items_no_fuel_error uw verbatim (S (length x)) x (Nat.lt_succ_diag_r _)) as [[l ->]| ->]; cbn [bind]; eauto.
Qed.

Lemma map_r_id {A} (f : A -> result A) l : Forall (fun x => f x = Ok x) l -> map_r f l = Ok l.
Proof.
  induction 1 as [|x l Hx _ IH]; [reflexivity|]. unfold map_r in *. rewrite Hx. cbn [bind]. rewrite IH. reflexivity.
Qed.
Lemma list_max_ge l n : In n l -> n <= list_max l.
Proof. intros H. pose proof (proj1 (list_max_le l (list_max l)) (Nat.le_refl _)) as F. rewrite Forall_forall in F. auto. Qed.
Definition reparses uw verbatim (c : content) : Prop :=
  recognised (fun _ => false) c -> forall level, level + depth c <= tag_max_depth -> parse_tags uw verbatim level c = Ok c.
Lemma reparse uw verbatim : forall c,
  reparses uw verbatim c /\ (forall l, c = Items l -> Forall (reparses uw verbatim) l).
Proof.
  assert (Hlev : forall c, 1 <= depth c) by (intros [s|n a [s|n' a' c|l]|l]; cbn [depth]; lia).
  assert (Hlist : forall l, Forall (reparses uw verbatim) l -> Forall (recognised (fun _ => false)) l ->
            forall level, level + list_max (map depth l) <= tag_max_depth -> map_r (parse_tags uw verbatim level) l = Ok l).
  { intros l H1 H2 level Hd. apply map_r_id. rewrite Forall_forall in *. intros x Hx. apply H1; auto.
    assert (depth x <= list_max (map depth l)) by (apply list_max_ge, in_map, Hx). lia. }
  induction c as [s|n a c [IH IHl]|l IH] using content_ind'.
  - split; [|discriminate]. intros Hr level Hd. inversion Hr as [? Hs| | |]; subst. cbn [depth] in Hd. cbn [parse_tags].
    destruct (Nat.leb_spec tag_max_depth level); [lia|]. apply C20_no_tag. exact Hs.
  - split; [|discriminate]. intros Hr level Hd. inversion Hr as [|? ? ? _ Hc|? ? ? Hv|]; subst; [|discriminate].
    assert (Hd' : forall k, (match c with Items l => S (list_max (map depth l)) | _ => S (depth c) end) = k -> level + k <= tag_max_depth).
    { intros k <-. destruct c; exact Hd. }
    specialize (Hd' _ eq_refl).
    assert (El : Nat.leb tag_max_depth level = false).
    { apply Nat.leb_gt. destruct c; lia. }
    destruct c as [s|n' a' c'|l].
    + change (parse_tags uw verbatim level (Tag n a (Text s))) with
        (if Nat.leb tag_max_depth level then Raise TagError
         else do c'' <- parse_tags uw verbatim (S level) (Text s); Ok (Tag n a c'')).
      rewrite El, IH; [reflexivity|exact Hc|lia].
    + change (parse_tags uw verbatim level (Tag n a (Tag n' a' c'))) with
        (if Nat.leb tag_max_depth level then Raise TagError
         else do c'' <- parse_tags uw verbatim (S level) (Tag n' a' c'); Ok (Tag n a c'')).
      rewrite El, IH; [reflexivity|exact Hc|lia].
    + cbn [parse_tags]. rewrite El. inversion Hc as [| | |? Hl]; subst.
      rewrite Hlist; [reflexivity|apply IHl; reflexivity|exact Hl|lia].
  - assert (F : Forall (reparses uw verbatim) l) by (eapply Forall_impl; [|exact IH]; intros c Hc; apply Hc).
    split; [|intros l' [= <-]; exact F]. intros Hr level Hd. inversion Hr as [| | |? Hl]; subst. cbn [depth] in Hd.
    cbn [parse_tags]. destruct (Nat.leb_spec tag_max_depth level); [lia|].
    rewrite Hlist; [reflexivity|exact F|exact Hl|lia].
Qed.

(** C20: processing a content again changes nothing, if no text in it has the
    beginning of a tag, up to the depth that is allowed. *)
Theorem C20_reparse :
  forall uw verbatim (c : content),
    recognised (fun _ => false) c -> S (depth c) <= 30 -> process_content uw verbatim c = Ok c.
Proof. intros uw verbatim c H1 H2. apply (proj1 (reparse uw verbatim c)); assumption. Qed.

(** C53: the content of a verbatim tag is kept literally when a text is parsed,
    at any depth. *)
Inductive literal (verbatim : str -> bool) : content -> Prop :=
| lit_text s : literal verbatim (Text s)
| lit_tag name a c : verbatim name = false -> literal verbatim c -> literal verbatim (Tag name a c)
| lit_verbatim name a s : verbatim name = true -> literal verbatim (Tag name a (Text s))
| lit_items l : Forall (literal verbatim) l -> literal verbatim (Items l).
Theorem C53_literal_partial :
  forall uw verbatim (x : str) (c : content), parse_text uw verbatim x = Ok c ->
    source_of c x /\ literal verbatim c.
Proof.
  intros uw verbatim x c H. split; [eapply C20_text_preserved; exact H|].
  apply C20_all_tags_found in H. clear x. revert c H.
  induction c as [s|n a c IH|l IH] using content_ind'; intros H; inversion H as [| |? ? ? Hv|? Hl]; subst.
  - constructor.
  - apply lit_tag; auto.
  - apply lit_verbatim. exact Hv.
  - constructor. rewrite Forall_forall in *. auto.
Qed.
(** C53 (finding): processing a list of contents (which is what the creation of
    a paragraph does) interprets the content of the verbatim tags in it. *)
Theorem C53_literal_refuted :
  ~ (forall uw verbatim (c c' : content), literal verbatim c -> process_content uw verbatim c = Ok c' -> c' = c).
Proof.
  intros H.
  pose (code := Tag (lit "code") None (Text (lit "@property"))).
  specialize (H (fun _ => false) (eqb (lit "code")) (Items [Text (lit "Use "); code])
               (Items [Text (lit "Use "); Tag (lit "code") None (Tag (lit "property") None (Text []))])).
  assert (E : Items [Text (lit "Use "); Tag (lit "code") None (Tag (lit "property") None (Text []))] = Items [Text (lit "Use "); code]).
  { apply H; [|reflexivity]. constructor. constructor; [constructor|]. constructor; [|constructor].
    apply lit_verbatim. reflexivity. }
  discriminate E.
Qed.

(** ** Braces *)
(** C21: the brace that closes a tag is unique. *)
Theorem C21_unique :
  forall i r i' r' : str, balanced i -> balanced i' -> i ++ 125%N :: r = i' ++ 125%N :: r' -> i = i' /\ r = r'.
Proof.
  assert (G : forall i r i' r' : str, balanced i -> balanced i' -> i ++ 125%N :: r = i' ++ 125%N :: r' -> length i <= length i' -> i = i').
  { intros i r i' r' [H1 H2] [H3 H4] E Hl. apply app_eq_app in E as (m & [[Ei Em]|[Ei Em]]).
    - subst i. rewrite app_length in Hl. destruct m; [apply app_nil_r|cbn in Hl; lia].
    - destruct m as [|d m]; [rewrite app_nil_r in Ei; congruence|]. cbn [app] in Em. injection Em as <- Em. exfalso.
      subst i'. specialize (H4 (i ++ [125%N]) m). rewrite <- app_assoc in H4. specialize (H4 eq_refl).
      unfold opens, closes in *. rewrite !count_occ_app in H4. cbn [count_occ] in H4.
      destruct (N.eq_dec 125 123); [discriminate|]. destruct (N.eq_dec 125 125); [|congruence]. lia. }
  intros i r i' r' H H' E.
  assert (i = i').
  { destruct (Nat.le_ge_cases (length i) (length i')); [eapply G; eauto|symmetry; eapply G; eauto]. }
  subst i'. split; [reflexivity|]. apply app_inv_head in E. congruence.
Qed.

Lemma not_word_brace uw : is_word uw 123%N = false /\ is_word uw 91%N = false.
Proof. split; reflexivity. Qed.
Lemma match_open_written uw name a y : tag_name uw name -> written_attrs a ->
  match_open uw ([64%N] ++ name ++ attrs_text a ++ [123%N] ++ y) = Some (name, a, true, y).
Proof.
  intros (c & w & -> & Hc & Hw) Ha. cbn [app]. unfold match_open. rewrite N.eqb_refl, Hc. cbn [andb].
  rewrite (span_app (is_word uw) w).
  - destruct a as [s|].
    + destruct Ha as (i & -> & Hne & Hi). change (lit "[") with [91%N]. change (lit "]") with [93%N].
      cbn [attrs_text app match_attrs]. rewrite N.eqb_refl. rewrite <- app_assoc. cbn [app].
      rewrite span_app.
      * destruct i as [|d i]; [congruence|]. rewrite N.eqb_refl. reflexivity.
      * apply forallb_forall. intros d Hd. destruct (N.eqb_spec d 93); [subst; contradiction|reflexivity].
      * intros d r [= <- _]. reflexivity.
    + reflexivity.
  - apply forallb_forall. rewrite Forall_forall in Hw. exact Hw.
  - intros d r E. destruct a as [s|].
    + destruct Ha as (i & -> & _). injection E as <- _. apply not_word_brace.
    + injection E as <- _. apply not_word_brace.
Qed.
Lemma search_open_written uw sofar name a y : ~ has_tag sofar -> tag_name uw name -> written_attrs a ->
  search_open uw (sofar ++ [64%N] ++ name ++ attrs_text a ++ [123%N] ++ y) = Some (sofar, (name, a, true, y)).
Proof.
  intros Hs Hn Ha. apply search_open_some. eexists. split; [reflexivity|]. split; [apply match_open_written; assumption|].
  intros p b E Hb. apply match_open_none. intros c r Er. destruct b as [|b0 b]; [congruence|]. cbn [app] in Er. injection Er as -> Er.
  destruct b as [|b1 b].
  - cbn [app] in Er. injection Er as <- _. reflexivity.
  - cbn [app] in Er. injection Er as -> Er. destruct (alnum c) eqn:Ec; [|reflexivity]. exfalso. apply Hs.
    exists p, c, b. auto.
Qed.
Lemma pieces_simplify l : alternating false l -> pieces (simplify l) = l.
Proof.
  destruct l as [|c [|c' l]]; cbn [simplify pieces]; try reflexivity. destruct c as [[|d s]|n a c|l]; cbn; intuition congruence.
Qed.

(** C21: the content of a tag is the text up to the brace that balances its
    opening brace, and parsing goes on after that brace.  (Braces may be nested
    up to 8 deep inside.) *)
Theorem C21_matching_brace_partial :
  forall uw (verbatim : str -> bool) (before name : str) (a : option str) (i r : str),
    ~ has_tag before -> tag_name uw name -> written_attrs a -> balanced i -> nesting 8 i ->
    let x := before ++ lit "@" ++ name ++ attrs_text a ++ lit "{" ++ i ++ lit "}" ++ r in
    match (if verbatim name then Ok (Text i) else parse_text uw verbatim i), parse_text uw verbatim r with
    | Ok ci, Ok cr =>
        exists c, parse_text uw verbatim x = Ok c /\
                  pieces c = (match before with [] => [] | _ => [Text before] end) ++ Tag name a ci :: pieces cr
    | _, _ => parse_text uw verbatim x = Raise TagError
    end.
Proof.
  intros uw verbatim before name a i r H1 H2 H3 H4 H5 x.
  assert (Hx : items uw verbatim x =
     do c <- (if verbatim name then Ok (Text i) else parse_text uw verbatim i) ;
     do l <- items uw verbatim r ; Ok (text_item before ++ Tag name a c :: l)).
  { rewrite items_step. unfold x. change (lit "@") with [64%N]. change (lit "{") with [123%N]. change (lit "}") with [125%N].
    rewrite search_open_written by assumption.
    assert (Ec : close_brace 1 (i ++ [125%N] ++ r) = Some (i, r)).
    { apply close_brace_iff; [lia|]. split; [reflexivity|]. apply inside_1. auto. }
    rewrite Ec. reflexivity. }
  rewrite (parse_text_items uw verbatim x), Hx. rewrite (parse_text_items uw verbatim r).
  assert (Hi : (exists c, (if verbatim name then Ok (Text i) else parse_text uw verbatim i) = Ok c) \/
               (if verbatim name then Ok (Text i) else parse_text uw verbatim i) = Raise TagError).
  { destruct (verbatim name); [eauto|apply C20_total]. }
  destruct Hi as [[ci ->]| ->]; [|reflexivity]. cbn [bind].
  assert (Hr : (exists l, items uw verbatim r = Ok l) \/ items uw verbatim r = Raise TagError).
  { apply items_no_fuel_error. lia. }
  destruct Hr as [[l Er]|Er]; rewrite Er; [|reflexivity]. cbn [bind].
  eexists. split; [reflexivity|].
  rewrite pieces_simplify; [|].
  2:{ destruct (items_tidy uw verbatim r l Er) as [_ A]. destruct before; cbn; [exact A|]. repeat split; [discriminate|exact A]. }
  rewrite pieces_simplify by apply (items_tidy uw verbatim r l Er). destruct before; reflexivity.
Qed.

(** C21: if no brace balances the opening brace, the text is refused. *)
Theorem C21_not_closed :
  forall uw verbatim (before name : str) (a : option str) (y : str),
    ~ has_tag before -> tag_name uw name -> written_attrs a ->
    (forall i r, balanced i -> y <> i ++ lit "}" ++ r) ->
    parse_text uw verbatim (before ++ lit "@" ++ name ++ attrs_text a ++ lit "{" ++ y) = Raise TagError.
Proof.
  intros uw verbatim before name a y H1 H2 H3 H4. rewrite parse_text_items, items_step.
  change (lit "@") with [64%N]. change (lit "{") with [123%N]. rewrite search_open_written by assumption.
  destruct (close_brace 1 y) as [[i r]|] eqn:E; [|reflexivity].
  apply close_brace_iff in E as [-> Hi]; [|lia]. apply inside_1 in Hi as [Hi _]. exfalso. exact (H4 i r Hi eq_refl).
Qed.

(** C21 (finding): with nine or more nested braces a closed tag is refused. *)
Theorem C21_depth_refuted :
  ~ (forall uw verbatim (name i : str), tag_name uw name -> balanced i -> ~ has_tag i ->
       parse_text uw verbatim (lit "@" ++ name ++ lit "{" ++ i ++ lit "}") <> Raise TagError).
Proof.
  intros H. specialize (H (fun _ => false) (fun _ => false) (lit "m") (repeat 123%N 9 ++ repeat 125%N 9)).
  apply H; [| | |reflexivity].
  - exists 109%N, []. repeat split. constructor.
  - split; [reflexivity|]. intros a b E. cbn [repeat app] in E.
    do 18 (destruct a as [|? a]; [cbn; lia|injection E as <- E]). symmetry in E. apply app_eq_nil in E as [-> _]. vm_compute. lia.
  - intros (a & c & b & E & Hc). cbn [repeat app] in E.
    do 18 (destruct a as [|? a]; [discriminate E|injection E as _ E]). destruct a; discriminate.
Qed.

(** A text with nested and verbatim tags. *)
Example C20_ex :
  parse_text (fun _ => false) (eqb (lit "code"))
    (lit "My @b[class=x]{bold @i{text {x}}}, @code{@b{}} and @br (me@you)") =
  Ok (Items [Text (lit "My "); Tag (lit "b") (Some (lit "[class=x]")) (Items [Text (lit "bold "); Tag (lit "i") None (Text (lit "text {x}"))]);
             Text (lit ", "); Tag (lit "code") None (Text (lit "@b{}")); Text (lit " and "); Tag (lit "br") None (Text []);
             Text (lit " (me"); Tag (lit "you") None (Text []); Text (lit ")")]).
Proof. reflexivity. Qed.
Example C21_ex : parse_text (fun _ => false) (fun _ => false) (lit "@b{never {closed}") = Raise TagError.
Proof. reflexivity. Qed.
Example C21_ex_balanced : balanced (lit "text {x}") /\ nesting 8 (lit "text {x}").
Proof.
  split; [split; [reflexivity|]|]; intros a b E;
    do 8 (destruct a as [|? a]; [vm_compute; lia|injection E as <- E]); symmetry in E; apply app_eq_nil in E as [-> _]; vm_compute; lia.
Qed.

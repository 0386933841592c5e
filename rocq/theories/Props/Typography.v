(** C51: typographic substitutions *)
From Coq Require Import List Bool Arith NArith Lia.
From Verif.Base Require Import Str StrFacts.
From Verif.Model Require Import Typography.
From Verif.Spec Require Import Typography.
From Verif.Proof Require Import Typography.
Import ListNotations.

Section Props.
Context (uw : char -> bool) (Huw : marks_are_no_words uw).

(** Text with no dashes (single hyphens are no dashes) and no quotes is unchanged. *)
Theorem C51_unchanged (x : str) : plain x -> ~ In 39%N x -> ~ In 34%N x -> typography uw x = x.
Proof.
  intros Hp H1 H2. unfold typography. rewrite (dashes_with x x (wd_end x Hp)). apply quotes_unchanged; assumption.
Qed.

(** Between texts, two hyphens or an en dash make an en dash, three hyphens or an em dash make an
    em dash, and the spaces on both sides go: for any number of dashes. *)
Theorem C51_dashes (x y : str) : with_dashes x y -> ~ In 39%N y -> ~ In 34%N y -> typography uw x = y.
Proof. intros H H1 H2. unfold typography. rewrite (dashes_with x y H). apply quotes_unchanged; assumption. Qed.

(** No two hyphens in sequence are left in any text, and no space stands beside a dash. *)
Theorem C51_set (x : str) :
  contains (typography uw x) (lit "--") = false /\
  (forall a c b u, In u [8211; 8212]%N -> typography uw x = a ++ c :: u :: b -> ~ space_char c) /\
  (forall a c b u, In u [8211; 8212]%N -> typography uw x = a ++ u :: c :: b -> ~ space_char c).
Proof.
  destruct (quotes_set uw Huw _ (dashes_set x)) as [(E1 & E2 & E3) (N1 & N2 & N3)]. fold (typography uw x) in *.
  assert (G : forall c, gap c = false -> ~ space_char c).
  { intros c H [Hs | ->]; [|discriminate H]. unfold gap in H. rewrite Hs in H. discriminate H. }
  split; [exact N1|]. split; intros a c b u [<-|[<-|[]]] E; apply G; [exact (N2 a c b E)|exact (E2 a c b E)|exact (N3 a c b E)|exact (E3 a c b E)].
Qed.

(** Letters and everything else than spaces, hyphens, dashes and quotes stay, in order. *)
Theorem C51_kept (x : str) :
  let other c := negb (gap c) && negb (mem c [45; 8211; 8212; 39; 34; 8216; 8217; 8220; 8221]%N) in
  filter other (typography uw x) = filter other x.
Proof.
  intros other. transitivity (filter other (dashes x)).
  - unfold typography. pose proof (quotes_similar uw Huw (dashes x)) as F. revert F. generalize (quotes uw (dashes x)). generalize (dashes x).
    intros a b F. induction F as [|c d a b Hc _ IH]; [reflexivity|]. cbn [filter]. rewrite IH. destruct Hc as [->|[Hc Hd]]; [reflexivity|].
    assert (other c = false) as -> by (destruct Hc as [-> | ->]; reflexivity).
    assert (other d = false) as -> by (cbn in Hd; destruct Hd as [<-|[<-|[<-|[<-|[]]]]]; reflexivity). reflexivity.
  - pose proof (dashes_kept x) as K.
    assert (G : forall z, filter other (filter kept z) = filter other z).
    { induction z as [|c z IH]; [reflexivity|]. cbn [filter]. destruct (kept c) eqn:Ek; cbn [filter]; rewrite IH; [reflexivity|].
      assert (other c = false) as ->; [|reflexivity]. unfold other, kept in *. destruct (gap c); [reflexivity|].
      cbn [negb andb mem existsb] in *. destruct (eqb_spec c 45%N) as [->|]; [reflexivity|]. destruct (eqb_spec c 8211%N) as [->|]; [reflexivity|].
      destruct (eqb_spec c 8212%N) as [->|]; [reflexivity|]. exfalso. revert Ek. 
      repeat match goal with |- context [N.eqb c ?k] => destruct (N.eqb_spec c k); [contradiction|] end. discriminate. }
    rewrite <- (G (dashes x)), <- (G x), K. reflexivity.
Qed.

(** With the dashes set, each character becomes the one for its neighbours. *)
Theorem C51_quotes (x y : str) : with_dashes x y ->
  length (typography uw x) = length y /\
  forall i c, nth_error y i = Some c ->
    exists c', nth_error (typography uw x) i = Some c' /\ becomes uw (char_before y i) c (nth_error y (S i)) c'.
Proof.
  intros Hx. unfold typography. rewrite (dashes_with x y Hx), (quotes_eq uw Huw). split; [apply neigh_length|]. intros i c E.
  exists (Fq (cls uw (char_before y i)) c (cls uw (nth_error y (S i)))). split; [|apply Fq_becomes].
  rewrite (neigh_nth uw Fq y _ i c E). destruct i; reflexivity.
Qed.
(** Which character that is does not leave a choice. *)
Theorem C51_quotes_unique p c n c1 c2 : becomes uw p c n c1 -> becomes uw p c n c2 -> c1 = c2.
Proof.
  assert (W : forall o, a_word uw o -> a_mark o) by apply word_mark.
  intros H1 H2. destruct H1; inversion H2; subst; try reflexivity; try contradiction; exfalso;
    repeat match goal with H : ~ (~ _ /\ _) |- _ => apply H; clear H; split | H : ?A, K : ~ ?A |- _ => exact (K H) end; auto;
    repeat match goal with H : a_word uw ?o |- _ => pose proof (W o H); clear W end; auto.
Qed.

(** Once is enough: for texts, and for trees of tags. *)
Theorem C51_idempotent (x : str) : typography uw (typography uw x) = typography uw x.
Proof. apply typography_twice, Huw. Qed.
Theorem C51_tree (c : content) :
  shape (process uw c) = shape c /\ texts (process uw c) = map (typography uw) (texts c) /\ process uw (process uw c) = process uw c.
Proof. split; [apply process_shape|]. split; [apply process_texts|apply process_twice, Huw]. Qed.
(** The longest match: a run of hyphens gives em dashes by threes, then an en dash for two left. *)
Theorem C51_longest (q : nat) :
  typography uw (repeat 45%N (3 * q)) = repeat 8212%N q /\
  typography uw (repeat 45%N (3 * q + 1)) = repeat 8212%N q ++ [45%N] /\
  typography uw (repeat 45%N (3 * q + 2)) = repeat 8212%N q ++ [8211%N].
Proof.
  unfold typography, dashes. assert (E : forall r, dash_at (lit "---") em_dash r = None -> (r = [] \/ exists c z, r = c :: z /\ gap c = false) ->
    sub_dash (lit "---") em_dash (repeat 45%N (3 * q) ++ r) = repeat 8212%N q ++ sub_dash (lit "---") em_dash r).
  { intros r _ Hr. induction q as [|n IH]; [reflexivity|]. replace (3 * S n) with (S (S (S (3 * n)))) by lia. cbn [repeat app].
    rewrite (sub_hit _ _ em1 _ (repeat 45%N (3 * n) ++ r)).
    - rewrite IH. reflexivity.
    - apply (at_dash (lit "---") em_dash em1 [] (lit "---") []); [reflexivity|reflexivity|left; reflexivity|].
      destruct n; [exact Hr|]. right. eexists _, _. cbn [Nat.mul Nat.add repeat app]. split; reflexivity. }
  assert (D : forall n z, dash_at (lit "--") en_dash z = None -> sub_dash (lit "--") en_dash (repeat 8212%N n ++ z) = repeat 8212%N n ++ sub_dash (lit "--") en_dash z).
  { intros n z _. apply (sub_copy (lit "--") en_dash en1). intros a b Eb Hb. destruct b as [|c b]; [contradiction|].
    assert (c = 8212%N) as -> by (apply (repeat_spec n 8212%N); rewrite Eb; apply in_or_app; right; left; reflexivity). reflexivity. }
  assert (Q : forall n z, ~ In 39%N z -> ~ In 34%N z -> quotes uw (repeat 8212%N n ++ z) = repeat 8212%N n ++ z).
  { intros n z H1 H2. apply quotes_unchanged; [exact Huw| |]; intros Hi; apply in_app_or in Hi as [Hi|Hi]; [apply repeat_spec in Hi; discriminate Hi|contradiction|apply repeat_spec in Hi; discriminate Hi|contradiction]. }
  rewrite !repeat_app. pose proof (E [] eq_refl (or_introl eq_refl)) as E0. rewrite app_nil_r in E0.
  split; [|split].
  - rewrite E0. change (sub_dash (lit "---") em_dash []) with (@nil N). rewrite (D q [] eq_refl).
    change (sub_dash (lit "--") en_dash []) with (@nil N). etransitivity; [apply Q; intros []|apply app_nil_r].
  - rewrite (E (repeat 45%N 1)); [|reflexivity|right; eexists _, _; split; reflexivity]. change (sub_dash (lit "---") em_dash (repeat 45%N 1)) with [45%N].
    rewrite (D q [45%N] eq_refl). apply Q; intros [Hi|[]]; discriminate Hi.
  - rewrite (E (repeat 45%N 2)); [|reflexivity|right; eexists _, _; split; reflexivity]. change (sub_dash (lit "---") em_dash (repeat 45%N 2)) with [45%N;45%N].
    assert (sub_dash (lit "--") en_dash (repeat 8212%N q ++ [45%N;45%N]) = repeat 8212%N q ++ [8211%N]) as ->; [|apply Q; intros [Hi|[]]; discriminate Hi].
    change [8211%N] with (sub_dash (lit "--") en_dash [45%N;45%N]). apply (sub_copy (lit "--") en_dash en1). intros a b Eb Hb. destruct b as [|c b]; [contradiction|].
    assert (c = 8212%N) as -> by (apply (repeat_spec q 8212%N); rewrite Eb; apply in_or_app; right; left; reflexivity). reflexivity.
Qed.
End Props.

(** Texts are set one by one: a quote beside a tag has no neighbour there and stays as it is,
    although with the same characters in one text it would be set. *)
Theorem C51_neighbour_across_tags_refuted :
  ~ (forall uw c, marks_are_no_words uw -> concat (texts (process uw c)) = typography uw (concat (texts c))).
Proof.
  intros H. specialize (H (fun _ => false) (CList [CText (lit "say """); CTag true (CText (lit "no")); CText (lit """ now")]) (fun _ _ => eq_refl)).
  vm_compute in H. discriminate H.
Qed.
(** A dash takes blank lines with it: the paragraphs on both sides become one. *)
Theorem C51_paragraphs_refuted :
  ~ (forall uw a b, marks_are_no_words uw -> contains (typography uw (a ++ [10; 10]%N ++ b)) [10; 10]%N = true).
Proof. intros H. specialize (H (fun _ => false) (lit "end") (lit "--- next") (fun _ _ => eq_refl)). vm_compute in H. discriminate H. Qed.

(** ["It's 'so' --- or -- not"] *)
Example C51_ex :
  let uw := fun _ : char => false in
  let x := lit """It's 'so' --- or -- not""" in
  let y := lit """It's 'so'" ++ 8212%N :: lit "or" ++ 8211%N :: lit "not""" in
  marks_are_no_words uw /\ with_dashes x y /\
  typography uw x = 8220%N :: lit "It" ++ 8217%N :: lit "s " ++ 8216%N :: lit "so" ++ [8217; 8212]%N ++ lit "or" ++ 8211%N :: lit "not" ++ [8221%N] /\
  plain (lit "a-b c") /\ ~ In 39%N (lit "a-b c").
Proof.
  cbn zeta. split; [intros c _; reflexivity|]. split; [|split; [vm_compute; reflexivity|split; [split; [vm_compute; reflexivity|]; split|]]].
  - change (with_dashes (lit """It's 'so'" ++ lit " " ++ lit "---" ++ lit " " ++ lit "or -- not""") (lit """It's 'so'" ++ 8212%N :: lit "or" ++ 8211%N :: lit "not""")).
    apply wd_dash.
    + split; [vm_compute; reflexivity|]. split; cbn; intuition discriminate.
    + right. exists 39%N, (lit """It's 'so"). split; [reflexivity|]. split; [intros [Hs|Hs]; discriminate Hs|cbn; intuition discriminate].
    + cbn. intros c [<-|[<-|[]]]; left; reflexivity.
    + constructor.
    + change (with_dashes (lit "or" ++ lit " " ++ lit "--" ++ lit " " ++ lit "not""") (lit "or" ++ 8211%N :: lit "not""")). apply wd_dash.
      * split; [vm_compute; reflexivity|]. split; cbn; intuition discriminate.
      * right. exists 114%N, (lit "o"). split; [reflexivity|]. split; [intros [Hs|Hs]; discriminate Hs|cbn; intuition discriminate].
      * cbn. intros c [<-|[<-|[]]]; left; reflexivity.
      * constructor.
      * apply wd_end. split; [vm_compute; reflexivity|]. split; cbn; intuition discriminate.
      * right. exists 110%N, (lit "ot"""). split; [reflexivity|]. split; [intros [Hs|Hs]; discriminate Hs|cbn; intuition discriminate].
    + right. exists 111%N, (lit "r -- not"""). split; [reflexivity|]. split; [intros [Hs|Hs]; discriminate Hs|cbn; intuition discriminate].
  - cbn; intuition discriminate.
  - cbn; intuition discriminate.
  - cbn; intuition discriminate.
Qed.

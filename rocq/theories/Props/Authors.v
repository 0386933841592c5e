(** C52: author lists *)
From Coq Require Import List Bool Arith NArith Lia.
From Verif.Base Require Import Str StrFacts Result.
From Verif.Model Require Import StringUtils Authors.
From Verif.Spec Require Import StringUtils Authors.
From Verif.Proof Require Import StringUtils Authors.
From Verif.Props Require Import StringUtils.
Import ListNotations.

(** Every list of names is read with commas and one and before the last name, each name once and in order;
    and so is every list joined with [nicejoin]. *)
Theorem C52_reads (names : list str) :
  exists s, author_string (VItems (map IStr names)) = Ok (IStr s) /\ nicejoin (lit ", ") (lit " and ") names = s /\ reads_as names s.
Proof.
  exists (reads names). split; [apply author_string_items|]. split; [apply nicejoin_reads|]. apply reads_iff. reflexivity.
Qed.
(** There is one way to read a list, *)
Theorem C52_reads_one (names : list str) (s s' : str) : reads_as names s -> reads_as names s' -> s = s'.
Proof. intros H1 H2. apply reads_iff in H1, H2. congruence. Qed.
(** and from what is read the names can be told. *)
Theorem C52_names_told (l l' : list str) (s : str) : Forall a_name l -> Forall a_name l' -> reads_as l s -> reads_as l' s -> l = l'.
Proof. intros Hl Hl' H1 H2. apply reads_iff in H1, H2. apply reads_inj; congruence. Qed.

(** Names written in the tag, separated by commas, semicolons or on lines of their own, are read in that order. *)
Theorem C52_written (context : ctx) (names : list str) (sep : str) :
  2 <= length names -> Forall a_name names -> In sep [lit ","; lit ", "; lit ";"; lit "; "; [10%N]] ->
  exists s, author_string (authors_content context (VStr (join sep names))) = Ok (IStr s) /\ reads_as names s.
Proof.
  intros Hl Hn Hs. assert (E : str_to_list (join sep names) = names).
  { assert (Hc : Forall clean_item names).
    { eapply Forall_impl; [|exact Hn]. intros n (H1 & _ & _ & _ & H2 & _). split; [exact H1|]. apply is_stripped_strip. exact H2. }
    destruct (C08_round_trip names Hl Hc) as (R1 & R2 & R3).
    - eapply Forall_impl; [|exact Hn]. intros n (_ & _ & H & _). exact H.
    - destruct R3 as (R3 & R4); [eapply Forall_impl; [|exact Hn]; intros n (_ & _ & _ & H & _); exact H|].
      destruct R4 as (R4 & R5); [eapply Forall_impl; [|exact Hn]; intros n (_ & H & _); exact H|].
      destruct Hs as [<-|[<-|[<-|[<-|[<-|[]]]]]]; assumption. }
  assert (B : eqb (strip (join sep names)) [] = false).
  { apply eqb_neq. intros B. assert (F : forall c, In c (join sep names) -> is_space c = true).
    { destruct (strip_p_decomp is_space (join sep names)) as (p & q & D & Hp & Hq & _). unfold strip in B. rewrite B in D. cbn [app] in D.
      intros c Hc. rewrite D in Hc. rewrite forallb_forall in Hp, Hq. apply in_app_or in Hc as [Hc|Hc]; auto. }
    destruct names as [|n names]; [cbn in Hl; lia|]. inversion Hn as [|n0 l0 (H1 & _ & _ & _ & H2 & _) _]; subst.
    assert (Hj : exists r, join sep (n :: names) = n ++ r).
    { destruct names; [exists []; cbn; rewrite app_nil_r; reflexivity|]. rewrite join_cons by discriminate. eexists. reflexivity. }
    destruct Hj as [r Ej]. destruct n as [|c n]; [contradiction|]. assert (is_space c = true) by (apply F; rewrite Ej; left; reflexivity).
    destruct (strip_p_decomp is_space (c :: n)) as (p & q & D & Hp & Hq & K & _). unfold strip in H2. rewrite H2 in K. rewrite (K c n eq_refl) in H. discriminate H. }
  exists (reads names). split; [|apply reads_iff; reflexivity]. unfold authors_content. rewrite B. rewrite E. apply author_string_items.
Qed.
(** A tag with nothing in it takes the entry author of the context, and only without it the entry authors. *)
Theorem C52_from_context (context : ctx) (content v : value) :
  content = VNone \/ (exists s, content = VStr s /\ forall c, In c s -> is_space c = true) ->
  ctx_author context = Some v \/ ctx_author context = None /\ ctx_authors context = Some v ->
  authors_content context content = match v with VStr s => VItems (map IStr (str_to_list s)) | _ => v end.
Proof.
  intros Hb Hv. unfold authors_content.
  assert (B : match content with VStr s => eqb (strip s) [] | VNone => true | _ => false end = true).
  { destruct Hb as [->|(s & -> & Hs)]; [reflexivity|]. rewrite (proj2 (eqb_eq _ _)); [reflexivity|].
    unfold strip. destruct (strip_p_decomp is_space s) as (p & q & D & _ & _ & K & _).
    destruct (strip_p is_space s) as [|c r]; [reflexivity|]. pose proof (K c r eq_refl) as K1. rewrite (Hs c) in K1; [discriminate K1|].
    rewrite D. apply in_or_app. right. left. reflexivity. }
  rewrite B. destruct Hv as [->|[-> ->]]; reflexivity.
Qed.

(** With the text ending in a separator, nobody is named after the last and. *)
Theorem C52_nobody_named_refuted :
  ~ (forall context t, strip t <> [] -> exists names s, author_string (authors_content context (VStr t)) = Ok (IStr s) /\
       reads_as names s /\ Forall a_name names).
Proof.
  intros H. destruct (H {| ctx_author := None; ctx_authors := None |} (lit "Ann, Bob,")) as (names & s & E & R & F).
  - vm_compute. discriminate.
  - assert (s = lit "Ann, Bob and ") as -> by (vm_compute in E; injection E as <-; reflexivity). clear E H.
    apply reads_iff in R. destruct names as [|a [|b [|c [|d l]]]]; [discriminate R| | | |].
    + inversion F as [|x y (_ & Ha & _) _]; subst x y. apply Ha. cbn in R. rewrite <- R. cbn. tauto.
    + inversion F as [|x y Ha F1]; subst x y. inversion F1 as [|x y Hb _]; subst x y. apply (comma_not_in_two a b Ha Hb). change (reads [a; b]) with (a ++ lit " and " ++ b) in R. rewrite <- R. cbn; tauto.
    + inversion F as [|x y (_ & Ha & _) F1]; subst x y. inversion F1 as [|x y Hb F2]; subst x y. inversion F2 as [|x y Hc _]; subst x y.
      change (lit "Ann" ++ 44%N :: 32%N :: lit "Bob and " = a ++ 44%N :: 32%N :: b ++ lit " and " ++ c) in R.
      assert (Hann : ~ In 44%N (lit "Ann")) by (cbn; intuition discriminate). destruct (first_c 44%N (lit "Ann") a _ _ Hann Ha R) as [_ E]. injection E as E.
      destruct (and_split (lit "Bob") [] b c) as [_ Hn]; [|exact Hb|exact E|].
      * split; [discriminate|]. repeat (split; [cbn; intuition discriminate|]). split; vm_compute; reflexivity.
      * destruct Hc as (Hc & _). congruence.
    + inversion F as [|x y (_ & Ha & _) F1]; subst x y.
      change (lit "Ann" ++ 44%N :: 32%N :: lit "Bob and " = a ++ 44%N :: 32%N :: b ++ 44%N :: 32%N :: reads (c :: d :: l)) in R.
      assert (Hann : ~ In 44%N (lit "Ann")) by (cbn; intuition discriminate). destruct (first_c 44%N (lit "Ann") a _ _ Hann Ha R) as [_ E]. injection E as E.
      assert (Hi : In 44%N (lit "Bob and ")) by (change (lit "Bob and " = b ++ 44%N :: 32%N :: reads (c :: d :: l)) in E; rewrite E; apply in_or_app; right; left; reflexivity).
      cbn in Hi. intuition discriminate.
Qed.
(** A name with a tag in it, as for a superscript, can not be rendered. *)
Theorem C52_tags_refuted :
  ~ (forall context l, l <> [] -> exists s, author_string (authors_content context (VItems l)) = Ok (IStr s)).
Proof.
  intros H. destruct (H {| ctx_author := None; ctx_authors := None |} [IStr (lit "Ann"); ITag]) as (s & E); [discriminate|]. discriminate E.
Qed.

Example C52_ex :
  let names := [lit "Ann"; lit "Sandy Band"; lit "Bob"] in
  2 <= length names /\ Forall a_name names /\
  author_string (authors_content {| ctx_author := None; ctx_authors := None |} (VStr (lit "Ann; Sandy Band; Bob"))) = Ok (IStr (lit "Ann, Sandy Band and Bob")) /\
  author_string (authors_content {| ctx_author := None; ctx_authors := Some (VStr (lit "Ann, Bob")) |} (VStr (lit " "))) = Ok (IStr (lit "Ann and Bob")).
Proof.
  cbn zeta. split; [cbn; lia|]. split; [|split; vm_compute; reflexivity].
  repeat (constructor; [split; [discriminate|]; repeat (split; [cbn; intuition discriminate|]); split; vm_compute; reflexivity|]). constructor.
Qed.

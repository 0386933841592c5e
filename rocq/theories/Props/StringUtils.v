(** C07, C08, C10: string utilities. *)
From Coq Require Import List Bool Arith NArith Lia.
From Verif.Base Require Import Str StrFacts PyText Result ListFacts.
From Verif.Model Require Import StringUtils.
From Verif.Spec Require Import StringUtils.
From Verif.Proof Require Import StringUtils.
Import ListNotations.

(** C07: for every non-empty list the result is a prefix of every string, and
    every common prefix is a prefix of it (so none is longer). *)
Theorem C07_longest_common_prefix :
  forall strings : list str, strings <> [] ->
  exists b, find_basestring strings = Ok b /\
    (forall s, In s strings -> is_prefix b s) /\
    (forall p, (forall s, In s strings -> is_prefix p s) -> is_prefix p b).
Proof.
  intros [|base l] Hne; [congruence|]. eexists. split; [reflexivity|].
  destruct (base_loop_spec (base :: l) (length base) base (le_n _)) as (H1 & H2 & H3).
  split.
  - apply base_found_iff. exact H2.
  - intros p Hp. apply H3; [apply Hp; left; reflexivity|]. apply base_found_iff. exact Hp.
Qed.

(** C07: the empty list is refused. *)
Theorem C07_empty_list : forall strings e,
  find_basestring strings = Raise e <-> strings = [] /\ e = IndexError.
Proof.
  intros [|b l] e; simpl; split; try discriminate.
  - intros [= <-]. auto.
  - intros [_ ->]. reflexivity.
  - intros [H _]. discriminate.
Qed.

Example C07_ex :
  find_basestring [lit "tester"; lit "test"; lit "testest"] = Ok (lit "test") /\
  find_basestring [lit "tester"; lit "test"; lit "testest"; lit "smile"] = Ok [].
Proof. split; reflexivity. Qed.

(** C08: a string with a ';' is split exactly there. *)
Theorem C08_semicolons :
  forall s ps, In 59%N s -> pieces_of 59%N s ps ->
    Forall2 is_stripped ps (str_to_list s).
Proof.
  intros s ps Hs Hp. apply pieces_of_split in Hp. unfold str_to_list.
  rewrite split_c_length_1. apply mem_In in Hs. rewrite Hs, Hp.
  clear. induction ps; simpl; constructor; auto. apply is_stripped_strip. reflexivity.
Qed.

(** C08: otherwise, if at least two lines are not blank, the items are the
    non-blank lines. *)
Theorem C08_newlines :
  forall s lines items, ~ In 59%N s -> pieces_of 10%N s lines ->
    Forall2 is_stripped lines items ->
    2 <= length (filter (fun i => negb (eqb i [])) items) ->
    str_to_list s = filter (fun i => negb (eqb i [])) items.
Proof.
  intros s lines items Hs Hp Hi Hl. apply pieces_of_split in Hp. unfold str_to_list.
  rewrite split_c_length_1. apply mem_not_In in Hs. rewrite Hs. unfold nl. rewrite Hp.
  replace (map strip lines) with items.
  2:{ clear -Hi. induction Hi; [reflexivity|]. simpl. apply is_stripped_strip in H. congruence. }
  apply Nat.ltb_lt in Hl. rewrite Hl. reflexivity.
Qed.

(** C08: otherwise a string with a ',' is split there; and a string with none
    of the separators is a single item. *)
Theorem C08_commas :
  forall s lines items ps, ~ In 59%N s -> pieces_of 10%N s lines ->
    Forall2 is_stripped lines items ->
    length (filter (fun i => negb (eqb i [])) items) <= 1 ->
    pieces_of 44%N s ps ->
    (In 44%N s -> Forall2 is_stripped ps (str_to_list s)) /\
    (~ In 44%N s -> str_to_list s = [s]).
Proof.
  intros s lines items ps Hs Hp Hi Hl Hc. apply pieces_of_split in Hp, Hc. unfold str_to_list.
  rewrite split_c_length_1. apply mem_not_In in Hs. rewrite Hs. unfold nl. rewrite Hp.
  replace (map strip lines) with items.
  2:{ clear -Hi. induction Hi; [reflexivity|]. simpl. apply is_stripped_strip in H. congruence. }
  apply Nat.ltb_ge in Hl. rewrite Hl, split_c_length_1.
  destruct (mem 44%N s) eqn:E.
  - split; [|apply mem_In in E; tauto]. intros _. rewrite Hc.
    clear. induction ps; simpl; constructor; auto. apply is_stripped_strip. reflexivity.
  - apply mem_not_In in E. split; [tauto|reflexivity].
Qed.

(** C08: clean items (not blank, nothing around them) come back unchanged when
    joined with a separator that does not occur in them, provided no stronger
    separator occurs in them either. *)
Theorem C08_round_trip :
  forall items : list str, 2 <= length items -> Forall clean_item items ->
    Forall (fun i => ~ In 59%N i) items ->
    str_to_list (join (lit ";") items) = items /\
    str_to_list (join (lit "; ") items) = items /\
    (Forall (fun i => ~ In 10%N i) items ->
       str_to_list (join [10%N] items) = items /\
       (Forall (fun i => ~ In 44%N i) items ->
          str_to_list (join (lit ",") items) = items /\
          str_to_list (join (lit ", ") items) = items)).
Proof.
  intros items Hlen Hc Hs.
  assert (Hne : items <> []) by (destruct items; simpl in Hlen; [lia|discriminate]).
  (* splitting at a separator, possibly followed by a space *)
  assert (Hsplit : forall c, Forall (fun i => ~ In c i) items ->
            split_c c (join [c] items) = items).
  { intros c Hf. apply split_c_join; [exact Hne|]. rewrite Forall_forall in Hf. exact Hf. }
  assert (Hsp : forall c, c <> 32%N -> Forall (fun i => ~ In c i) items ->
            map strip (split_c c (join [c; 32%N] items)) = items /\
            length (split_c c (join [c; 32%N] items)) = length items).
  { intros c Hc32 Hf. clear -Hc Hf Hne Hc32.
    assert (Hgen : forall w l, clean_item w -> Forall clean_item l ->
              ~ In c w -> Forall (fun i => ~ In c i) l -> forall p, forallb is_space p = true -> ~ In c p ->
              map strip (split_c c (p ++ join [c; 32%N] (w :: l))) = w :: l /\
              length (split_c c (p ++ join [c; 32%N] (w :: l))) = S (length l)).
    { intros w l. revert w. induction l as [|w' l IH]; intros w Hw Hl Hcw Hcl p Hp Hcp.
      - cbn [join]. rewrite split_c_fresh by (rewrite in_app_iff; tauto). simpl. split; [|reflexivity].
        f_equal. unfold strip. rewrite <- (app_nil_r w) at 1. apply strip_p_unique; auto.
        apply clean_strip in Hw as [Hw _]. rewrite <- Hw.
        destruct (strip_p_decomp is_space w) as (_ & _ & _ & _ & _ & H). exact H.
      - rewrite join_cons by discriminate.
        replace (p ++ w ++ [c; 32%N] ++ join [c; 32%N] (w' :: l))
          with ((p ++ w) ++ c :: [32%N] ++ join [c; 32%N] (w' :: l))
          by (rewrite <- app_assoc; reflexivity).
        rewrite split_c_app by (rewrite in_app_iff; tauto).
        apply Forall_cons_iff in Hl as [Hw' Hl]. apply Forall_cons_iff in Hcl as [Hcw' Hcl].
        destruct (IH w' Hw' Hl Hcw' Hcl [32%N] eq_refl) as [E1 E2].
        { simpl. intros [E|[]]. congruence. }
        cbn [map length]. rewrite E1, E2. split; [|reflexivity]. f_equal.
        unfold strip. rewrite <- (app_nil_r w) at 1. apply strip_p_unique; auto.
        apply clean_strip in Hw as [Hw _]. rewrite <- Hw.
        destruct (strip_p_decomp is_space w) as (_ & _ & _ & _ & _ & H). exact H. }
    destruct items as [|w l]; [congruence|].
    apply Forall_cons_iff in Hc as [Hw Hl]. apply Forall_cons_iff in Hf as [Hcw Hcl].
    apply (Hgen w l Hw Hl Hcw Hcl [] eq_refl). auto. }
  assert (Hnosemi : forall sep, ~ In 59%N sep -> length (split_c 59%N (join sep items)) = 1).
  { intros sep Hsep. rewrite split_c_fresh; [reflexivity|]. apply join_not_In; assumption. }
  change (lit ";") with [59%N]. change (lit "; ") with [59%N; 32%N].
  change (lit ",") with [44%N]. change (lit ", ") with [44%N; 32%N].
  assert (Hl : Nat.ltb 1 (length items) = true) by (apply Nat.ltb_lt; lia).
  split; [|split].
  - unfold str_to_list. rewrite (Hsplit 59%N Hs), Hl. apply map_strip_clean. exact Hc.
  - unfold str_to_list. destruct (Hsp 59%N ltac:(discriminate) Hs) as [E1 E2].
    rewrite E2, Hl. exact E1.
  - intros Hn. split; [|intros Hcm; split].
    + unfold str_to_list, nl. rewrite Hnosemi by (simpl; intros [|[]]; discriminate). change (Nat.ltb 1 1) with false; cbv iota.
      rewrite (Hsplit 10%N Hn), map_strip_clean by exact Hc.
      rewrite filter_all, Hl; [reflexivity|].
      intros x Hx. rewrite Forall_forall in Hc. destruct (Hc x Hx) as [Hx' _].
      destruct (eqb_spec x []); [contradiction|reflexivity].
    + unfold str_to_list, nl. rewrite Hnosemi by (simpl; intros [|[]]; discriminate). change (Nat.ltb 1 1) with false; cbv iota.
      rewrite (split_c_fresh 10%N) by (apply join_not_In; [simpl; intros [|[]]; discriminate|exact Hn]).
      rewrite (Hsplit 44%N Hcm), Hl, (map_strip_clean items) by exact Hc.
      cbn [map filter]. destruct (negb _); reflexivity.
    + unfold str_to_list, nl. rewrite Hnosemi by (simpl; intros [|[|[]]]; discriminate). change (Nat.ltb 1 1) with false; cbv iota.
      rewrite (split_c_fresh 10%N) by (apply join_not_In; [simpl; intros [|[|[]]]; discriminate|exact Hn]).
      destruct (Hsp 44%N ltac:(discriminate) Hcm) as [E1 E2]. rewrite E2, Hl, E1.
      cbn [map filter]. destruct (negb _); reflexivity.
Qed.

(** C08 (finding): a value with a single item is returned with the white space
    around it, although the items of longer lists are stripped. *)
Theorem C08_single_item_not_stripped_refuted :
  ~ (forall s, exists raw, Forall2 is_stripped raw (str_to_list s)).
Proof.
  intros H. destruct (H (lit " html")) as (raw & Hr).
  change (str_to_list (lit " html")) with [lit " html"] in Hr.
  inversion Hr as [|x y l l' Hxy Hl]; subst. apply is_stripped_strip in Hxy.
  assert (E : strip (lit " html") = lit " html").
  { rewrite <- Hxy at 1. unfold strip. rewrite strip_p_idem. exact Hxy. }
  discriminate E.
Qed.

Example C08_ex :
  str_to_list (lit "one, two, three") = [lit "one"; lit "two"; lit "three"] /\
  str_to_list (lit "one, 1; two, 2; three, 3") = [lit "one, 1"; lit "two, 2"; lit "three, 3"] /\
  str_to_list ([10%N] ++ lit "one, 1" ++ [10%N] ++ lit "two, 2") = [lit "one, 1"; lit "two, 2"] /\
  str_to_list (lit "friends") = [lit "friends"].
Proof. repeat split. Qed.
Example C08_ex_round_trip :
  Forall clean_item [lit "one"; lit "two"] /\ Forall (fun i => ~ In 59%N i) [lit "one"; lit "two"].
Proof.
  split; repeat constructor; try discriminate; try (apply is_stripped_strip; reflexivity);
    simpl; intros H; repeat (destruct H as [H|H]; try discriminate); auto.
Qed.

(** C10: nothing visible is lost, added or moved: the characters, the places
    where tags begin and end, and the other objects are the same.  (Provided
    that no tag has an empty list as its content.) *)
Theorem C10_content_preserved :
  forall v : node, no_hollow_tag v -> events (group_strings v) = events v.
Proof. apply group_events. Qed.

(** C10 (finding): a tag whose content is an empty list is lost. *)
Theorem C10_content_preserved_refuted :
  ~ (forall v : node, events (group_strings v) = events v).
Proof. intros H. specialize (H (NList [NStr (lit "a"); NTag 1 (NList [])])). discriminate H. Qed.

(** C10: in the result no list has an empty string or two neighbouring strings,
    at any depth. *)
Theorem C10_grouped : forall v : node, grouped (group_strings v).
Proof. apply group_grouped. Qed.

(** C10: grouping again changes nothing (for contents as the parser makes
    them: no list is directly an item of a list, and no content of a tag is a
    list with nothing to see). *)
Theorem C10_idempotent_partial :
  forall v : node, plain_content v -> group_strings (group_strings v) = group_strings v.
Proof. intros v Hv. apply normal_fixed, group_normal, Hv. Qed.

(** C10 (finding): with a list directly inside a list a second grouping can
    change the result: an inner list that becomes empty is only removed the
    next time. *)
Theorem C10_idempotent_refuted :
  ~ (forall v : node, group_strings (group_strings v) = group_strings v).
Proof.
  intros H.
  specialize (H (NList [NStr (lit "a"); NList [NStr []]; NStr (lit "b")])). discriminate H.
Qed.

Example C10_ex :
  let v := NList [NStr (lit "a"); NStr (lit "b"); NStr []; NTag 3 (NList [NStr []; NStr (lit "c")]);
                  NStr []; NObj 4 true; NStr (lit "f")] in
  plain_content v /\
  group_strings v = NList [NStr (lit "ab"); NTag 3 (NList [NStr (lit "c")]); NObj 4 true; NStr (lit "f")].
Proof.
  split; [|reflexivity]. constructor.
  - repeat constructor; simpl; try (intros l' H; repeat (destruct H as [H|H]; try discriminate); auto). discriminate.
  - simpl; intros l' H; repeat (destruct H as [H|H]; try discriminate); auto.
Qed.

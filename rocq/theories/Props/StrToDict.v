(** C09: headers. *)
From Coq Require Import List Bool Arith NArith Lia.
From Verif.Base Require Import Str StrFacts Dict PyText PyTextFacts Result.
From Verif.Model Require Import StringUtils StrToDict.
From Verif.Spec Require Import StrToDict.
From Verif.Proof Require Import StrToDict.
From Verif.Model Require ListUtils.
From Verif.Props Require ListUtils.
Import ListNotations.

(** C09: the text of a nested dictionary, at any indentation and depth, reads
    back as that dictionary. *)
Theorem C09_nested_round_trip :
  forall (n : nat) (es : list (str * htree)),
    wf_tree (HNode es) -> reads_as (written n es) (HNode es).
Proof. intros n es Ht. apply (written_reads (HNode es) Ht n). Qed.

(** C09: at one level, exactly: the keys in order with their values, and the
    text of the sub-entries for a nested dictionary; with or without removing
    quotes. *)
Theorem C09_entries :
  forall (b : bool) (n : nat) (es : list (str * htree)), wf_tree (HNode es) ->
    str_to_dict b (written n es) =
    map (fun e => (fst e, match snd e with HLeaf v => v | HNode es' => written 2 es' end)) es.
Proof. intros. apply written_dict. assumption. Qed.

(** C09: a header between lines of dashes is found, removed from the text, and
    what follows it is returned as it is. *)
Theorem C09_header_block :
  forall (sp : str) (k : nat) (lines : list str) (rest : str),
    Forall (fun c => rx_space c = true) sp -> 3 <= k ->
    lines <> [] -> Forall header_line lines ->
    load_from_string (sp ++ repeat 45%N k ++ [10%N] ++ join [10%N] lines ++ [10%N] ++ repeat 45%N k
                      ++ [10%N] ++ rest)
    = (Some rest, str_to_dict true (join [10%N] lines)).
Proof.
  intros sp k lines rest H1 H2 H3 H4. unfold load_from_string.
  rewrite match_header_block by assumption. reflexivity.
Qed.

(** C09: putting both together: a document with a nested header. *)
Theorem C09_document_header :
  forall (es : list (str * htree)) (rest : str), es <> [] -> wf_tree (HNode es) ->
    no_dash (HNode es) ->
    exists d, load_from_string (lit "---" ++ [10%N] ++ written 0 es ++ [10%N] ++ lit "---" ++ [10%N] ++ rest)
              = (Some rest, d) /\
      Forall2 (fun kv e => fst kv = fst e /\ reads_as (snd kv) (snd e)) d es.
Proof.
  intros es rest Hne Ht Hd.
  assert (Hl : Forall header_line (lines_of_entries 0 es)).
  { inversion Ht as [|es' H0 H1]; subst. inversion Hd as [|es' N0]; subst.
    unfold lines_of_entries. apply Forall_flat_map. rewrite Forall_forall in *.
    intros [k' t'] He. destruct (H0 _ He) as [H2 H3]. destruct (N0 _ He) as [N2 N3].
    apply lines_of_header; assumption. }
  exists (str_to_dict true (written 0 es)). split.
  - apply (C09_header_block [] 3 (lines_of_entries 0 es) rest); auto.
    destruct es as [|[k [v|es']] es]; [congruence| |]; unfold lines_of_entries; cbn [flat_map fst snd].
    + discriminate.
    + rewrite lines_of_node. discriminate.
  - pose proof (C09_nested_round_trip 0 es Ht) as H. inversion H; subst. assumption.
Qed.

(** C09: a value that is quoted keeps the white space inside its quotes. *)
Theorem C09_quoted_value :
  forall (k v : str), wf_key k ->
    Forall (fun c => is_linebreak c = false /\ is_quote c = false) v -> v <> [] ->
    str_to_dict true (k ++ lit ": " ++ [34%N] ++ v ++ [34%N]) = [(k, v)].
Proof.
  intros k v Hk Hv Hne. unfold str_to_dict.
  assert (Hb : Forall (fun c => is_linebreak c = false) ([34%N] ++ v ++ [34%N])).
  { apply Forall_app; split; [repeat constructor|]. apply Forall_app; split; [|repeat constructor].
    eapply Forall_impl; [|exact Hv]. simpl. tauto. }
  assert (Hb2 : Forall (fun c => is_linebreak c = false) (k ++ lit ": " ++ [34%N] ++ v ++ [34%N])).
  { apply Forall_app; split; [apply wf_key_no_break; exact Hk|].
    apply Forall_app; split; [repeat constructor|exact Hb]. }
  unfold splitlines. rewrite splitlines_from_end by exact Hb2. cbn [rev app].
  destruct (k ++ lit ": " ++ 34%N :: v ++ [34%N]) as [|c0 r0] eqn:E.
  { destruct k; discriminate. }
  rewrite <- E. cbn [fold_left].
  change (k ++ lit ": " ++ 34%N :: v ++ [34%N]) with
    (spaces 0 ++ k ++ colon :: ([32%N] ++ 34%N :: v ++ [34%N])).
  rewrite sd_line_new by (auto; intros []). cbn [map fst snd app].
  f_equal. f_equal. replace (lstrip_p rx_space (32%N :: 34%N :: v ++ [34%N])) with (34%N :: v ++ [34%N]) by reflexivity.
  unfold entry_text. cbn [join].
  assert (Hnn : forall x, Forall (fun c => is_linebreak c = false) x -> strip_c nl x = x).
  { intros x Hx. rewrite Forall_forall in Hx. apply strip_p_id. split; intros c r ->;
      (destruct (N.eqb_spec nl c) as [<-|]; [|reflexivity]).
    - specialize (Hx nl (or_introl eq_refl)). discriminate.
    - assert (Hi : In nl (r ++ [nl])) by (apply in_app_iff; simpl; auto). specialize (Hx nl Hi). discriminate. }
  rewrite Hnn by exact Hb. unfold strip_end_quotes.
  replace (mem nl _) with false by (symmetry; apply mem_not_In, no_nl; exact Hb).
  assert (Hq : forall q, is_quote q = true -> ~ In q v).
  { intros q Hq Hi. rewrite Forall_forall in Hv. destruct (Hv q Hi). congruence. }
  cbn [strip_quotes_line].
  rewrite (split_c_fresh 39%N).
  2:{ simpl. rewrite in_app_iff. simpl. intros [|[Hi|[|[]]]]; try discriminate.
      revert Hi. apply Hq. reflexivity. }
  cbn [hd last].
  replace (eqb (strip (34%N :: v ++ [34%N])) []) with false.
  2:{ symmetry. apply eqb_neq. unfold strip. rewrite strip_p_nil_iff. discriminate. }
  cbn [andb].
  assert (Ec : count_c 34%N (34%N :: v ++ [34%N]) = 2).
  { unfold count_c. cbn [filter]. rewrite N.eqb_refl. rewrite filter_app. cbn [filter]. rewrite N.eqb_refl.
    cbn [length]. rewrite app_length. cbn [length]. f_equal.
    replace (filter (N.eqb 34%N) v) with (@nil N); [reflexivity|]. symmetry.
    assert (Hn : ~ In 34%N v) by (apply Hq; reflexivity). clear -Hn. induction v as [|c v IH]; [reflexivity|].
    cbn [filter]. destruct (N.eqb_spec 34%N c) as [Ec|]; [exfalso; apply Hn; left; auto|]. apply IH. simpl in Hn. tauto. }
  rewrite Ec. cbn [Nat.even].
  assert (Es : split_c 34%N (34%N :: v ++ [34%N]) = [[]; v; []]).
  { change (34%N :: v ++ [34%N]) with ([] ++ 34%N :: (v ++ 34%N :: [])).
    rewrite split_c_app by auto. rewrite split_c_app by (apply Hq; reflexivity). reflexivity. }
  rewrite Es. destruct (Nat.even _); cbn; rewrite ?app_nil_r; reflexivity.
Qed.

(** C09 (finding): a line below an indented entry that is indented less than
    the entry loses its first characters, although it belongs to the entry. *)
Theorem C09_text_lost_refuted :
  ~ (forall key v line : str, wf_key key -> wf_value v -> wf_value line ->
       ~ In 58%N line ->
       exists t, str_to_dict true (spaces 2 ++ key ++ lit ": " ++ v ++ [10%N] ++ line) = [(key, t)] /\
                 contains t line = true).
Proof.
  intros H. destruct (H (lit "a") (lit "x") (lit "bcd")) as (t & E & Ht).
  - split; [|split].
    + exists 97%N, []. repeat split.
    + intros c r E. destruct r as [|x [|y r]]; try discriminate. injection E as <-. reflexivity.
    + repeat constructor; discriminate.
  - split; [|split].
    + intros c r [= <- _]. split; reflexivity.
    + repeat constructor.
    + intros [|x [|y a]] b; discriminate.
  - split; [|split].
    + intros c r [= <- _]. split; reflexivity.
    + repeat constructor.
    + intros [|x [|y [|z [|w a]]]] b; discriminate.
  - simpl. intros [|[|[|[]]]]; discriminate.
  - vm_compute in E. injection E as <-. vm_compute in Ht. discriminate.
Qed.

(** C09 (finding): two entries with the same key are merged into one text
    instead of the later one replacing the earlier one or an error. *)
Theorem C09_duplicate_key_refuted :
  ~ (forall k v1 v2 : str, wf_key k -> wf_value v1 -> wf_value v2 ->
       str_to_dict true (k ++ lit ": " ++ v1 ++ [10%N] ++ k ++ lit ": " ++ v2) = [(k, v1)] \/
       str_to_dict true (k ++ lit ": " ++ v1 ++ [10%N] ++ k ++ lit ": " ++ v2) = [(k, v2)]).
Proof.
  intros H. destruct (H (lit "a") (lit "1") (lit "2")) as [E|E].
  - split; [|split].
    + exists 97%N, []. repeat split.
    + intros c r E. destruct r as [|x [|y r]]; try discriminate. injection E as <-. reflexivity.
    + repeat constructor; discriminate.
  - split; [|split].
    + intros c r [= <- _]. split; reflexivity.
    + repeat constructor.
    + intros [|x [|y a]] b; discriminate.
  - split; [|split].
    + intros c r [= <- _]. split; reflexivity.
    + repeat constructor.
    + intros [|x [|y a]] b; discriminate.
  - vm_compute in E. discriminate.
  - vm_compute in E. discriminate.
Qed.

(** Non-vacuity: the example of the documentation, nested. *)
Definition C09_example : list (str * htree) :=
  [(lit "first", HLeaf (lit "one")); (lit "second", HNode [(lit "a", HLeaf (lit "http://x")); (lit "b", HLeaf [])]);
   (lit "third", HLeaf (lit "3"))].
Example C09_ex_wf : wf_tree (HNode C09_example).
Proof.
  assert (W : forall k, forallb (fun c => N.leb 97 c && N.leb c 122) k = true -> k <> [] -> wf_key k).
  { intros k Hk Hne. rewrite forallb_forall in Hk.
    assert (R : forall c, In c k -> (97 <= c <= 122)%N).
    { intros c Hc. specialize (Hk c Hc). apply andb_true_iff in Hk as [H1 H2].
      apply N.leb_le in H1, H2. lia. }
    assert (Hs : forall c, In c k -> is_space c = false).
    { intros c Hc. specialize (R c Hc). destruct (is_space c) eqn:E; [|reflexivity].
      apply is_space_cases in E. lia. }
    split; [|split].
    - destruct k as [|c r]; [congruence|]. exists c, r. repeat split; [apply Hs; left; reflexivity|].
      specialize (R c (or_introl eq_refl)). unfold is_quote.
      destruct (N.eqb_spec c 39), (N.eqb_spec c 34); try lia; reflexivity.
    - intros c r ->. apply Hs. apply in_app_iff. simpl. auto.
    - apply Forall_forall. intros c Hc. specialize (R c Hc). repeat split; try lia.
      unfold is_linebreak.
      repeat match goal with |- context[N.leb ?a ?b] => destruct (N.leb_spec a b); try lia end;
      repeat match goal with |- context[N.eqb ?a ?b] => destruct (N.eqb_spec a b); try lia end; reflexivity. }
  assert (V : forall v, (forall c r, v = c :: r -> is_space c = false /\ is_quote c = false) ->
            forallb (fun c => negb (is_linebreak c)) v = true -> ~ In 92%N v -> wf_value v).
  { intros v H1 H2 H3. split; [exact H1|]. split.
    - rewrite forallb_forall in H2. apply Forall_forall. intros c Hc. apply negb_true_iff. auto.
    - intros a b ->. apply H3. apply in_app_iff. simpl. auto. }
  assert (VV : forall c r, is_space c = false -> is_quote c = false ->
            forallb (fun c => negb (is_linebreak c)) (c :: r) = true -> ~ In 92%N (c :: r) -> wf_tree (HLeaf (c :: r))).
  { intros. constructor. apply V; auto. intros c' r' [= <- <-]. auto. }
  assert (NI : forall v, mem 92%N v = false -> ~ In 92%N v) by (intros v Hv; apply mem_not_In; exact Hv).
  assert (ND : forall l : list str, eqb (Model.ListUtils.uniq l) l = true -> NoDup l).
  { intros l El. apply eqb_eq in El. rewrite <- El.
    apply (proj1 (Props.ListUtils.C04_uniq_plain _ _ l)). }
  assert (L : forall v, wf_tree (HLeaf v) -> forall k es,
            forallb (fun c => N.leb 97 c && N.leb c 122) k = true -> k <> [] ->
            Forall (fun e => wf_key (fst e) /\ wf_tree (snd e)) es ->
            Forall (fun e => wf_key (fst e) /\ wf_tree (snd e)) ((k, HLeaf v) :: es)).
  { intros v Hv k es H1 H2 H3. constructor; [|exact H3]. cbn [fst snd]. auto. }
  constructor; [|apply ND; reflexivity].
  apply L; [apply VV; [reflexivity|reflexivity|reflexivity|apply NI; reflexivity]|reflexivity|discriminate|].
  constructor; [cbn [fst snd]; split; [apply W; [reflexivity|discriminate]|]|].
  - constructor; [|apply ND; reflexivity].
    apply L; [apply VV; [reflexivity|reflexivity|reflexivity|apply NI; reflexivity]|reflexivity|discriminate|].
    apply L; [constructor; apply V; [discriminate|reflexivity|intros []]|reflexivity|discriminate|constructor].
  - apply L; [apply VV; [reflexivity|reflexivity|reflexivity|apply NI; reflexivity]|reflexivity|discriminate|constructor].
Qed.
Example C09_ex : str_to_dict true (written 0 C09_example) =
  [(lit "first", lit "one"); (lit "second", lit "  a: http://x" ++ [10%N] ++ lit "  b: "); (lit "third", lit "3")].
Proof. reflexivity. Qed.
Example C09_ex_no_dash : no_dash (HNode C09_example).
Proof. repeat (constructor; cbn [fst snd hd lit]; try discriminate). Qed.

Lemma plus_lazy_In {A} (f : A -> bool) x p r : In (p, r) (plus_lazy f x) -> x = p ++ r /\ p <> nil.
Proof.
  unfold plus_lazy. destruct x as [|c x]; [intros []|]. destruct (f c); [|intros []]. intros H.
  apply in_map_iff in H as ([p' r'] & [= <- <-] & H). apply star_lazy_In in H as [-> _]. split; [reflexivity|discriminate].
Qed.
Lemma match_entry_none line :
  (forall a c r, line = a ++ c :: 58%N :: r -> c = 92%N) -> (forall r, line <> 58%N :: r) -> match_entry line = None.
Proof.
  intros H H0. unfold match_entry. apply first_match_None. intros [sp r] Hs. apply star_greedy_In in Hs as [E _].
  cbn [fst snd]. apply first_match_None. intros [k r'] Hk. apply plus_lazy_In in Hk as [E' Hne]. cbn [fst snd].
  destruct r' as [|c r']; [reflexivity|]. destruct (N.eqb_spec c colon) as [->|]; [|reflexivity]. cbn [andb].
  destruct (exists_last Hne) as (k' & z & ->). rewrite last_last.
  rewrite (H (sp ++ k') z r').
  - reflexivity.
  - rewrite E, E'. rewrite <- !app_assoc. reflexivity.
Qed.
Lemma replace2_app a b new x y : ~ In a x -> replace2 a b new (x ++ y) = x ++ replace2 a b new y.
Proof.
  induction x as [|c x IH]; intros H; [reflexivity|]. cbn [app replace2].
  destruct (x ++ y) as [|d z] eqn:E.
  - apply app_eq_nil in E as [-> ->]. reflexivity.
  - destruct (N.eqb_spec c a) as [->|]; [exfalso; apply H; left; reflexivity|]. cbn [andb]. f_equal.
    apply IH. intros Hi. apply H. right. exact Hi.
Qed.

(** C09: a line whose colon is escaped belongs to the entry above it, and loses
    the backslash. *)
Theorem C09_escaped_colon :
  forall (k v l1 l2 : str), wf_key k -> wf_value v -> v <> [] -> l1 <> [] ->
    Forall (fun c => is_linebreak c = false /\ c <> 58%N /\ c <> 92%N) l1 ->
    Forall (fun c => is_linebreak c = false /\ c <> 58%N /\ c <> 92%N) l2 ->
    str_to_dict false (k ++ lit ": " ++ v ++ [10%N] ++ l1 ++ [92%N; 58%N] ++ l2) =
    [(k, v ++ [10%N] ++ l1 ++ [58%N] ++ l2)].
Proof.
  intros k v l1 l2 Hk Hv Hne H1 F1 F2. destruct (wf_key_no_break k Hk) as [K1 K2].
  destruct Hv as (V0 & V1 & V2). set (line := l1 ++ [92%N; 58%N] ++ l2).
  assert (N1 : forall l, Forall (fun c => is_linebreak c = false /\ c <> 58%N /\ c <> 92%N) l ->
               Forall (fun c => is_linebreak c = false) l).
  { intros l. apply Forall_impl. tauto. }
  assert (E0 : splitlines (k ++ lit ": " ++ v ++ [10%N] ++ line) = [k ++ lit ": " ++ v; line]).
  { replace (k ++ lit ": " ++ v ++ [10%N] ++ line) with (join [10%N] [k ++ lit ": " ++ v; line]).
    2:{ cbn [join]. rewrite <- !app_assoc. reflexivity. }
    apply splitlines_join.
    - apply Forall_cons; [|apply Forall_cons; [|constructor]].
      + apply Forall_app; split; [exact K1|]. apply Forall_app; split; [repeat constructor|exact V1].
      + apply Forall_app; split; [apply N1; exact F1|]. apply Forall_app; split; [repeat constructor|apply N1; exact F2].
    - cbn [last]. unfold line. destruct l1; discriminate. }
  assert (Em : match_entry line = None).
  { apply match_entry_none.
    - unfold line. intros a c r E. rewrite Forall_forall in F1, F2.
      revert E.
      assert (G : forall x a, (forall d, In d x -> d <> 58%N) -> x ++ [92%N; 58%N] ++ l2 = a ++ c :: 58%N :: r -> c = 92%N).
      { induction x as [|d x IH]; intros a0 Hx E.
        - destruct a0 as [|e a0]; cbn [app] in E; [injection E; auto|]. injection E as _ E.
          destruct a0 as [|e' a0]; cbn [app] in E.
          + injection E as <- E. exfalso. destruct (F2 58%N) as (_ & H & _); [rewrite E; left; reflexivity|congruence].
          + injection E as _ E. exfalso. destruct (F2 58%N) as (_ & H & _); [|congruence].
            rewrite E. apply in_app_iff. right. right. left. reflexivity.
        - destruct a0 as [|e a0]; cbn [app] in E.
          + injection E as -> E. destruct x as [|f x].
            * cbn [app] in E. discriminate.
            * cbn [app] in E. injection E as -> _. exfalso. apply (Hx 58%N); [right; left; reflexivity|reflexivity].
          + injection E as _ E. apply (IH a0); [|exact E]. intros f Hf. apply Hx. right. exact Hf. }
      intros E. apply (G l1 a).
      + intros d Hd. destruct (F1 d Hd) as (_ & Hd' & _). exact Hd'.
      + exact E.
    - intros r E. unfold line in E. destruct l1 as [|c l1]; [congruence|]. injection E as -> _.
      apply Forall_cons_iff in F1 as [(_ & F & _) _]. congruence. }
  assert (Er : replace2 backslash colon [colon] line = l1 ++ [58%N] ++ l2).
  { unfold line. rewrite replace2_app.
    - f_equal. cbn [app replace2]. change (N.eqb 92 backslash && N.eqb 58 colon) with true. cbv iota. cbn [app].
      unfold colon. f_equal. apply replace2_id. intros p q E. rewrite Forall_forall in F2.
      destruct (F2 backslash) as (_ & _ & H); [|unfold backslash in H; congruence]. rewrite E. apply in_app_iff. right. left. reflexivity.
    - intros Hi. rewrite Forall_forall in F1. destruct (F1 _ Hi) as (_ & _ & H). unfold backslash in H. congruence. }
  unfold str_to_dict. rewrite E0. cbn [fold_left].
  change (k ++ lit ": " ++ v) with (spaces 0 ++ k ++ colon :: ([32%N] ++ v)).
  rewrite sd_line_new by (auto; intros []). change ([32%N] ++ v) with (32%N :: v). rewrite (lstrip_value v (conj V0 (conj V1 V2))).
  unfold sd_line. rewrite Em. cbn [skipn]. rewrite Er. cbn [app append_line].
  cbn [lookup set]. rewrite eqb_refl. cbn [app map fst snd]. f_equal. f_equal.
  unfold entry_text. cbn [join]. fold nl. apply strip_p_id. split.
  - intros c r E. destruct v as [|d v]; [congruence|]. cbn [app] in E. injection E as -> _.
    apply Forall_cons_iff in V1 as [V1 _]. destruct (N.eqb_spec nl c) as [<-|]; [discriminate|reflexivity].
  - intros c r E. destruct (N.eqb_spec nl c) as [<-|]; [|reflexivity]. exfalso.
    assert (El : last (v ++ nl :: l1 ++ 58%N :: l2) 0%N = nl) by (rewrite E; apply last_last).
    change (nl :: l1 ++ 58%N :: l2) with ([nl] ++ l1 ++ 58%N :: l2) in El.
    rewrite !last_app_ne in El by (try discriminate; destruct l1; discriminate).
    destruct (exists_last (l := 58%N :: l2)) as (y & z & Ez); [discriminate|]. rewrite Ez, last_last in El. subst z.
    assert (Hi : In nl (58%N :: l2)) by (rewrite Ez; apply in_app_iff; right; left; reflexivity).
    destruct Hi as [Hi|Hi]; [discriminate|]. rewrite Forall_forall in F2. destruct (F2 _ Hi) as (F & _). discriminate.
Qed.
Example C09_ex_escaped : str_to_dict false (lit "a: b" ++ [10%N] ++ lit "time 12\:30") = [(lit "a", lit "b" ++ [10%N] ++ lit "time 12:30")].
Proof. reflexivity. Qed.

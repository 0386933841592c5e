(** Property C87: the lists of signals and their receivers *)
From Coq Require Import List Bool ZArith NArith Arith Lia Sorted Permutation.
From Verif.Base Require Import Str StrFacts Dict DictFacts Sort SortFacts PyText PyTextFacts.
From Verif.Model Require Import Signals SignalList.
From Verif.Spec Require Import Signals SignalList.
From Verif.Props Require AutoLabels LabelTags Signals.
Import ListNotations.

(** * Descriptions *)
Lemma flush_line run : ~ In 10%N (flush run).
Proof.
  unfold flush. destruct (mem 10%N run) eqn:E; [intros [C|[]]; discriminate|]. intros I. apply mem_In in I. congruence.
Qed.
Lemma newline_line s : forall run, ~ In 10%N (newline_space run s).
Proof.
  induction s as [|c s IH]; intros run; cbn [newline_space]; [apply flush_line|]. destruct (rx_space c) eqn:E; [apply IH|].
  intros I. apply in_app_or in I as [I|[->|I]]; [exact (flush_line run I)|discriminate|exact (IH nil I)].
Qed.
Lemma inked_app a b : inked (a ++ b) = inked a ++ inked b.
Proof. apply filter_app. Qed.
Lemma inked_spaces run : (forall c, In c run -> rx_space c = true) -> inked run = nil /\ inked (flush run) = nil.
Proof.
  intros H. assert (E : inked run = nil).
  { induction run as [|c run IH]; [reflexivity|]. unfold inked. cbn [filter]. rewrite (H c (or_introl eq_refl)). apply IH. intros x X. apply H. now right. }
  split; [exact E|]. unfold flush. destruct (mem 10%N run); [reflexivity|exact E].
Qed.
Lemma newline_inked s : forall run, (forall c, In c run -> rx_space c = true) -> inked (newline_space run s) = inked s.
Proof.
  induction s as [|c s IH]; intros run H; cbn [newline_space]; [apply (proj2 (inked_spaces run H))|]. destruct (rx_space c) eqn:E.
  - rewrite IH; [unfold inked; cbn [filter]; now rewrite E|]. intros x X. apply in_app_or in X as [X|[<-|[]]]; auto.
  - rewrite inked_app, (proj2 (inked_spaces run H)). cbn [app]. unfold inked at 1 2. cbn [filter]. rewrite E. cbn [negb]. f_equal.
    apply (IH nil). intros x [].
Qed.
Lemma newline_same s : forall run, ~ In 10%N run -> ~ In 10%N s -> newline_space run s = run ++ s.
Proof.
  assert (F : forall run, ~ In 10%N run -> flush run = run).
  { intros run R. unfold flush. destruct (mem 10%N run) eqn:E; [|reflexivity]. now apply mem_In in E. }
  induction s as [|c s IH]; intros run R S; cbn [newline_space]; [rewrite F by exact R; now rewrite app_nil_r|]. destruct (rx_space c).
  - rewrite IH; [now rewrite <- app_assoc| |intros I; apply S; now right]. intros I. apply in_app_or in I as [I|[->|[]]]; [now apply R|]. apply S. now left.
  - rewrite F by exact R. f_equal. f_equal. apply (IH nil); [intros []|]. intros I. apply S. now right.
Qed.
(** The short description has one line and all characters, except white space, of the
    part of the docstring before its first empty line. *)
Theorem C87_stub : forall s, exists p, first_part p s /\ ~ In 10%N (stub s) /\ inked (stub s) = inked p.
Proof.
  intros s. unfold stub. destruct (AutoLabels.split_s_first [10%N; 10%N] s) as (w & ws & -> & O & H); [discriminate|]. cbn [hd]. exists w.
  split; [|split; [apply newline_line|apply newline_inked; intros c []]]. split; [intros a b ->; apply O; now exists a, b|].
  destruct H as [[_ ->]|(r & ->)]; [now left|right; now exists r].
Qed.
(** A docstring with one line is not changed. *)
Theorem C87_stub_same : forall s, ~ In 10%N s -> stub s = s.
Proof.
  intros s H. unfold stub. rewrite split_s_none; [cbn [hd]; apply (newline_same s nil); [intros []|exact H]|].
  destruct (contains s [10%N; 10%N]) eqn:E; [|reflexivity]. exfalso. apply contains_iff in E as (a & b & ->). apply H. apply in_or_app. right. now left.
Qed.
(** The lines are joined with single spaces, whatever their indentation. *)
Theorem C87_stub_lines : forall a w b, a <> nil -> b <> nil -> ~ In 10%N a -> ~ In 10%N b ->
  (forall x, In x w -> rx_space x = true /\ x <> 10%N) ->
  (forall x l, a = l ++ [x] -> rx_space x = false) -> (forall x l, b = x :: l -> rx_space x = false) ->
  stub (a ++ 10%N :: w ++ b) = a ++ 32%N :: b.
Proof.
  intros a w b Na Nb Ha Hb Hw La Fb. unfold stub.
  assert (W10 : ~ In 10%N w) by (intros I; now apply (proj2 (Hw _ I))).
  assert (C : contains (a ++ 10%N :: w ++ b) [10%N; 10%N] = false).
  { destruct (contains _ _) eqn:E; [|reflexivity]. exfalso. apply contains_iff in E as (u & v & E). apply (f_equal (fun l => count_occ N.eq_dec l 10%N)) in E.
    rewrite !count_occ_app in E. cbn [count_occ] in E. rewrite !count_occ_app in E. cbn [count_occ app] in E.
    repeat match type of E with context [N.eq_dec 10 10] => destruct (N.eq_dec 10 10) as [_|X]; [|now contradict X] end.
    apply (count_occ_not_In N.eq_dec) in Ha, Hb, W10. rewrite Ha, Hb, W10 in E. lia. }
  rewrite split_s_none by exact C. cbn [hd]. clear C.
  assert (G : forall a run, ~ In 10%N run -> ~ In 10%N a -> (a <> nil -> forall x l, a = l ++ [x] -> rx_space x = false) -> (a = nil -> run = nil) ->
    newline_space run (a ++ 10%N :: w ++ b) = run ++ a ++ 32%N :: b).
  { clear a Na Ha La. induction a as [|c a IH]; intros run R A L E.
    - rewrite (E eq_refl). cbn [app newline_space]. change (rx_space 10) with true. cbv iota. cbn [app].
      assert (Q : forall w run, (forall x, In x w -> rx_space x = true) -> In 10%N run -> newline_space run (w ++ b) = 32%N :: b).
      { clear - Nb Hb Fb. induction w as [|c w IHw]; intros run H I.
        - destruct b as [|c b]; [now contradict Nb|]. cbn [app newline_space]. rewrite (Fb c b eq_refl). unfold flush. apply mem_In in I. rewrite I. cbn [app]. f_equal. f_equal.
          apply (newline_same b nil); [intros []|]. intros X. apply Hb. now right.
        - cbn [app newline_space]. rewrite (H c (or_introl eq_refl)). apply IHw; [intros x X; apply H; now right|]. apply in_or_app. now left. }
      apply Q; [intros x X; now apply Hw|now left].
    - cbn [app newline_space]. destruct (rx_space c) eqn:S.
      + rewrite IH; [now rewrite <- app_assoc| | | |].
        * intros I. apply in_app_or in I as [I|[->|[]]]; [now apply R|]. apply A. now left.
        * intros I. apply A. now right.
        * intros _ x l ->. apply (L ltac:(discriminate) x (c :: l)). reflexivity.
        * intros ->. rewrite (L ltac:(discriminate) c nil eq_refl) in S. discriminate.
      + assert (F : flush run = run). { unfold flush. destruct (mem 10%N run) eqn:M; [|reflexivity]. now apply mem_In in M. }
        rewrite F. f_equal. f_equal. rewrite IH; [reflexivity|intros []|intros I; apply A; now right| |reflexivity].
        intros _ x l ->. apply (L ltac:(discriminate) x (c :: l)). reflexivity. }
  rewrite (G a nil); [reflexivity|intros []|exact Ha|intros _; exact La|reflexivity].
Qed.
(** A line with white space only does not end the description, however. *)
Theorem C87_stub_blank_refuted : ~ (forall p w r, (forall c, In c w -> rx_space c = true) -> ~ In 10%N p -> stub (p ++ 10%N :: w ++ 10%N :: r) = p).
Proof. intros H. specialize (H (lit "A") (lit " ") (lit "B")). vm_compute in H. discriminate H; [intros c [<-|[]]; reflexivity|intuition discriminate]. Qed.

(** * Receivers *)
Lemma sorted_spec {A} (s : dict Z A) : wf s ->
  Permutation (isort (fun x y => Z.leb (fst x) (fst y)) s) s /\ StronglySorted Z.lt (map fst (isort (fun x y => Z.leb (fst x) (fst y)) s)).
Proof.
  intros Hw. set (l := isort _ s). assert (Hp : Permutation l s) by apply isort_perm. split; [exact Hp|].
  assert (Hs : StronglySorted (fun x y : Z * A => Z.leb (fst x) (fst y) = true) l).
  { apply isort_sorted.
    - intros x y. destruct (Z.leb_spec (fst x) (fst y)); [auto|]. right. apply Z.leb_le. lia.
    - intros x y z. rewrite !Z.leb_le. lia. }
  assert (Hn : NoDup (map fst l)).
  { eapply Permutation_NoDup; [|exact Hw]. apply Permutation_sym, Permutation_map. exact Hp. }
  clear Hp. clearbody l. induction Hs as [|a l Hl IH Ha]; [constructor|].
  cbn [map] in *. inversion Hn as [|? ? Hni Hn']; subst. constructor; [auto|].
  apply Forall_map. rewrite Forall_forall in Ha |- *. intros b Hb. specialize (Ha b Hb). apply Z.leb_le in Ha.
  assert (fst a <> fst b) by (intros E; apply Hni; rewrite E; apply in_map; exact Hb). lia.
Qed.
Lemma sorted_unique {A} (l m : list (Z * A)) : StronglySorted Z.lt (map fst l) -> StronglySorted Z.lt (map fst m) ->
  (forall x, In x l <-> In x m) -> l = m.
Proof.
  revert m. induction l as [|a l IH]; intros m L M E.
  - destruct m as [|b m]; [reflexivity|]. exfalso. apply (proj2 (E b)). now left.
  - destruct m as [|b m]; [exfalso; apply (proj1 (E a)); now left|]. cbn [map] in L, M. inversion L as [|? ? L' FL]; inversion M as [|? ? M' FM]; subst.
    rewrite Forall_map, Forall_forall in FL, FM.
    assert (Q : a = b).
    { destruct (proj1 (E a) (or_introl eq_refl)) as [Q|I]; [now symmetry|]. destruct (proj2 (E b) (or_introl eq_refl)) as [Q|J]; [exact Q|].
      apply FM in I. apply FL in J. lia. }
    subst b. f_equal. apply IH; [exact L'|exact M'|]. intros x. split; intros X.
    + destruct (proj1 (E x) (or_intror X)) as [<-|Y]; [|exact Y]. apply FL in X. lia.
    + destruct (proj2 (E x) (or_intror X)) as [<-|Y]; [|exact Y]. apply FM in X. lia.
Qed.
Section Lists.
Variable R : Type.
Variables (name : R -> str) (doc : R -> option str) (class_doc : str) (alive : R -> bool) (order : Z -> str).

Lemma deref_exists (x : stored R) r : deref alive x = Some r <-> exists_now alive x r.
Proof.
  unfold exists_now. destruct x as [y|y]; cbn [deref].
  - destruct (alive y) eqn:A; split; [intros [= ->]; auto|intros [C|[C _]]; [discriminate|congruence]|discriminate|intros [C|[C D]]; congruence].
  - split; [intros [= ->]; auto|intros [C|[C _]]; congruence].
Qed.
Lemma live_In (s : signal R) o r : In (o, r) (receivers_dict alive s) <-> exists x, In (o, x) s /\ exists_now alive x r.
Proof.
  unfold receivers_dict. rewrite in_flat_map. split.
  - intros ([o' x] & I & J). cbn [fst snd] in J. destruct (deref alive x) as [r'|] eqn:D; [|destruct J]. destruct J as [[= -> ->]|[]]. exists x. split; [exact I|now apply deref_exists].
  - intros (x & I & E). exists (o, x). split; [exact I|]. cbn [fst snd]. apply deref_exists in E. rewrite E. now left.
Qed.
Lemma live_sorted (s : signal R) : StronglySorted Z.lt (map fst s) -> StronglySorted Z.lt (map fst (receivers_dict alive s)).
Proof.
  induction s as [|[o x] s IH]; intros S; [constructor|]. cbn [map fst] in S. inversion S as [|? ? S' F]; subst.
  unfold receivers_dict. cbn [flat_map fst snd]. fold (receivers_dict alive s). destruct (deref alive x) as [r|]; [|now apply IH]. cbn [app map fst]. constructor; [now apply IH|].
  rewrite Forall_map, Forall_forall in F |- *. intros [o' r'] I. apply live_In in I as (y & I & _). exact (F (o', y) I).
Qed.
Lemma live_wf (s : signal R) : wf s -> wf (receivers_dict alive s).
Proof.
  unfold wf, keys. induction s as [|[o x] s IH]; intros W; [constructor|]. cbn [map fst] in W. inversion W as [|? ? N W']; subst.
  unfold receivers_dict. cbn [flat_map fst snd]. fold (receivers_dict alive s). destruct (deref alive x) as [r|]; [|now apply IH]. cbn [app map fst]. constructor; [|now apply IH].
  intros I. apply in_map_iff in I as ([o' r'] & Q & I). cbn [fst] in Q. subst o'. apply live_In in I as (y & I & _). apply N. now apply (in_map fst) in I.
Qed.
(** The list for a signal, after any connections and resets: the receivers that exist, each
    once with its order, in increasing order, *)
Theorem C87_listed : forall h, (forall o r, In (o, r) (listed R alive (after h)) <-> exists x, connected h o x /\ exists_now alive x r) /\
  StronglySorted Z.lt (map fst (listed R alive (after h))).
Proof.
  intros h. destruct (Signals.after_spec h) as [W S]. destruct (sorted_spec (receivers_dict alive (after h)) (live_wf _ W)) as [P Q]. fold (listed R alive (after h)) in P, Q.
  split; [|exact Q]. intros o r. rewrite (Permutation_in' eq_refl P), live_In. split; intros (x & I & E); exists x; (split; [|exact E]).
  - apply S. now apply In_lookup.
  - apply S in I. now apply lookup_In.
Qed.
(** and it is the order in which they are run when the signal is sent. *)
Theorem C87_run : forall h, snd (emit (fun r (l : list R) => (tt, l ++ [r])) alive (after h) nil) = map snd (listed R alive (after h)).
Proof.
  intros h. destruct (Signals.after_spec h) as [W S]. destruct (Signals.in_order_spec (after h) W) as [P Q].
  assert (E : listed R alive (after h) = receivers_dict alive (in_order (after h))).
  { apply sorted_unique; [apply C87_listed|now apply live_sorted|]. intros [o r]. unfold listed. rewrite (Permutation_in' eq_refl (isort_perm _ _)), !live_In.
    split; intros (x & I & X); exists x; (split; [|exact X]); revert I; apply Permutation_in; [now apply Permutation_sym|exact P]. }
  rewrite E. unfold emit. generalize (in_order (after h)). intros l.
  assert (G : forall l acc, snd (emit_loop (fun r (l : list R) => (tt, l ++ [r])) alive l acc) = acc ++ map snd (receivers_dict alive l)).
  { clear. induction l as [|[o x] l IH]; intros acc; cbn [emit_loop]; [unfold receivers_dict; cbn; now rewrite app_nil_r|].
    unfold receivers_dict. cbn [flat_map fst snd]. fold (receivers_dict alive l). destruct (deref alive x) as [r|].
    - specialize (IH (acc ++ [r])). destruct (emit_loop _ alive l (acc ++ [r])) as [vs st]. cbn [snd app map] in *. rewrite IH, <- app_assoc. reflexivity.
    - specialize (IH acc). destruct (emit_loop _ alive l acc) as [vs st]. exact IH. }
  exact (G l nil).
Qed.
(** The page and the command show all signals, in order, with the same descriptions and
    receivers. *)
Theorem C87_page : forall ns i n d s, nth_error ns i = Some (n, (d, s)) ->
  nth_error (signals_to_dict R name doc class_doc alive ns) i =
    Some (n, stub (match d with Some d => d | None => class_doc end),
          map (fun x => {| n_name := name (snd x); n_order := fst x; n_doc := option_map stub (doc (snd x)) |}) (listed R alive s)) /\
  length (signals_to_dict R name doc class_doc alive ns) = length ns.
Proof. intros ns i n d s E. unfold signals_to_dict. rewrite nth_error_map, E, map_length. split; reflexivity. Qed.
Lemma texts_nth l : forall c i o r, nth_error l i = Some (o, r) -> nth_error (receiver_texts R name doc order c l) i =
  Some (mark (c + i) ++ lit ". " ++ name r ++ match doc r with Some d => lit " - " ++ stub d | None => nil end, lit "   order: " ++ order o).
Proof.
  induction l as [|[o' r'] l IH]; intros c i o r E; [destruct i; discriminate|]. destruct i as [|i]; cbn [nth_error receiver_texts] in *.
  - injection E as -> ->. now rewrite Nat.add_0_r.
  - rewrite (IH (S c) i o r E). now rewrite Nat.add_succ_comm.
Qed.
Theorem C87_command : forall ns i n d s, nth_error ns i = Some (n, (d, s)) ->
  exists texts, nth_error (print_signals R name doc class_doc alive order 1 ns) i =
    Some (str_of_nat (S i) ++ lit ". " ++ n, stub (match d with Some d => d | None => class_doc end), texts) /\
  length texts = length (listed R alive s) /\
  forall j o r, nth_error (listed R alive s) j = Some (o, r) -> nth_error texts j =
    Some (mark j ++ lit ". " ++ name r ++ match doc r with Some d => lit " - " ++ stub d | None => nil end, lit "   order: " ++ order o).
Proof.
  intros ns i n d s E. exists (receiver_texts R name doc order 0 (listed R alive s)). split; [|split].
  - assert (G : forall ns c i, nth_error ns i = Some (n, (d, s)) -> nth_error (print_signals R name doc class_doc alive order c ns) i =
      Some (str_of_nat (c + i) ++ lit ". " ++ n, stub (match d with Some d => d | None => class_doc end), receiver_texts R name doc order 0 (listed R alive s))); [|exact (G ns 1 i E)].
    clear. induction ns as [|[n' [d' s']] ns IH]; intros c i E; [destruct i; discriminate|]. destruct i as [|i]; cbn [nth_error print_signals] in *.
    + injection E as -> -> ->. now rewrite Nat.add_0_r.
    + rewrite (IH (S c) i E). now rewrite Nat.add_succ_comm.
  - generalize 0. clear. induction (listed R alive s) as [|[o r] l IH]; intros c; [reflexivity|]. cbn [receiver_texts length]. now rewrite IH.
  - intros j o r J. exact (texts_nth _ 0 j o r J).
Qed.
End Lists.
(** No two receivers have the same mark. *)
Theorem C87_marks : forall i j, mark i = mark j -> i = j.
Proof.
  intros i j. unfold mark.
  assert (D : forall n k, (97 <= k)%N -> [k] = str_of_nat n -> False).
  { intros n k K E. assert (I : In k (str_of_nat n)) by (rewrite <- E; now left). apply LabelTags.nat_digits in I. lia. }
  assert (G : forall n, (97 <= 97 + N.of_nat n)%N) by (intros n; lia).
  destruct (Nat.ltb_spec i 26) as [I|I], (Nat.ltb_spec j 26) as [J|J]; intros E.
  - assert (Q : (97 + N.of_nat i = 97 + N.of_nat j)%N) by congruence. lia.
  - exfalso. exact (D _ _ (G i) E).
  - exfalso. symmetry in E. exact (D _ _ (G j) E).
  - now apply AutoLabels.str_of_nat_inj.
Qed.

(** Two receivers of three, of which one is gone *)
Definition ex_history : list (op nat) := [Connect 5%Z 2 false; Connect 30%Z 1 true; Connect 10%Z 0 true].
Definition ex_doc (n : nat) : option str :=
  if Nat.eqb n 1 then Some (lit "Do it" ++ [10%N] ++ lit "    now." ++ [10%N; 10%N] ++ lit "More") else None.
Example C87_ex :
  listed nat (Nat.eqb 1) (after ex_history) = [(5%Z, 2); (30%Z, 1)] /\
  receiver_texts nat (fun n => lit "f" ++ str_of_nat n) ex_doc (fun z => str_of_nat (Z.to_nat z)) 0 (listed nat (Nat.eqb 1) (after ex_history)) =
    [(lit "a. f2", lit "   order: 5"); (lit "b. f1 - Do it now.", lit "   order: 30")] /\
  (mark 25 = lit "z") /\ (mark 26 = lit "26").
Proof. split; [reflexivity|]. split; [vm_compute; reflexivity|]. split; reflexivity. Qed.

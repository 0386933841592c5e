(** Lemmas for Props/StrToDict.v *)
From Coq Require Import List Bool Arith NArith Lia.
From Verif.Base Require Import Str StrFacts Dict DictFacts PyText PyTextFacts Result.
From Verif.Model Require Import StringUtils StrToDict.
From Verif.Spec Require Import StrToDict.
Import ListNotations.

Section HtreeInd.
  Variable P : htree -> Prop.
  Hypothesis Hl : forall v, P (HLeaf v).
  Hypothesis Hn : forall es, Forall (fun e => P (snd e)) es -> P (HNode es).
  Fixpoint htree_ind' (t : htree) : P t :=
    match t with
    | HLeaf v => Hl v
    | HNode es => Hn es ((fix go es : Forall (fun e => P (snd e)) es :=
                            match es with
                            | nil => Forall_nil _
                            | e :: r => Forall_cons e (htree_ind' (snd e)) (go r)
                            end) es)
    end.
End HtreeInd.

Lemma lines_of_node n k es :
  lines_of n k (HNode es) = (spaces n ++ k ++ lit ":") :: lines_of_entries (n + 2) es.
Proof.
  cbn [lines_of]. f_equal. induction es as [|[k' t'] es IH]; [reflexivity|].
  unfold lines_of_entries in *. cbn [flat_map fst snd]. rewrite IH. reflexivity.
Qed.

Lemma spaces_space n : forallb is_space (spaces n) = true.
Proof. induction n; simpl; auto. Qed.
Lemma spaces_rx n : forallb rx_space (spaces n) = true.
Proof. induction n; simpl; auto. Qed.

(** ** One line *)
Lemma match_entry_line n k r : wf_key k ->
  match_entry (spaces n ++ k ++ colon :: r) = Some (n, k, lstrip_p rx_space r).
Proof.
  intros ((c & k' & -> & Hc & _) & _ & Hk). unfold match_entry.
  apply first_match_greedy.
  - apply spaces_rx.
  - intros d r' E. injection E as <- _. apply not_space_rx. exact Hc.
  - cbn [fst snd]. rewrite Forall_forall in Hk.
    apply first_match_plus_lazy; [discriminate|apply forallb_forall; reflexivity| |].
    + intros a b E _ Hb. cbn [snd]. destruct b as [|d b]; [congruence|]. cbn [app].
      destruct (N.eqb_spec d colon) as [->|]; [|reflexivity].
      exfalso. destruct (Hk colon) as (_ & H & _); [|apply H; reflexivity]. rewrite E. apply in_app_iff. simpl. auto.
    + cbn [fst snd]. rewrite N.eqb_refl. cbn [andb].
      destruct (N.eqb_spec (last (c :: k') 0%N) backslash) as [E|_].
      * exfalso. destruct (Hk backslash) as (_ & _ & H); [|apply H; reflexivity]. rewrite <- E.
        destruct (exists_last (l := c :: k')) as (a & z & ->); [discriminate|].
        rewrite last_last, in_app_iff. simpl. auto.
      * cbn [negb]. unfold spaces; rewrite repeat_length. reflexivity.
Qed.

Lemma strip_key k : wf_key k -> strip k = k.
Proof.
  intros ((c & k' & -> & Hc & _) & He & _). apply strip_p_id. split; [|exact He].
  intros d r E. injection E as <- _. exact Hc.
Qed.

Lemma lstrip_value v : wf_value v -> lstrip_p rx_space (32%N :: v) = v.
Proof.
  intros [H _]. apply (lstrip_p_unique rx_space [32%N] v); [reflexivity|].
  intros c r E. apply not_space_rx, (H c r E).
Qed.

(** What the lines below an entry look like. *)
Definition entry_line (m : nat) (l : str) : Prop :=
  exists m' k r, m <= m' /\ wf_key k /\ l = spaces m' ++ k ++ colon :: r /\
    Forall (fun c => is_linebreak c = false) l /\ (forall a b, l <> a ++ 92%N :: 58%N :: b).

Lemma spaces_no_linebreak n : Forall (fun c => is_linebreak c = false) (spaces n).
Proof. induction n; simpl; constructor; auto. Qed.

Lemma no_escape_app a b :
  ~ In 92%N a -> (forall p q, b <> p ++ 92%N :: 58%N :: q) ->
  forall p q, a ++ b <> p ++ 92%N :: 58%N :: q.
Proof.
  intros Ha Hb. induction a as [|c a IH]; [exact Hb|].
  intros [|d p] q E.
  - injection E as -> _. apply Ha. left. reflexivity.
  - injection E as -> E. apply (IH (fun H => Ha (or_intror H)) p q E).
Qed.

Lemma wf_key_no_break k : wf_key k ->
  Forall (fun c => is_linebreak c = false) k /\ ~ In 92%N k.
Proof.
  intros (_ & _ & H). split.
  - eapply Forall_impl; [|exact H]. simpl. tauto.
  - intros Hin. rewrite Forall_forall in H. destruct (H _ Hin) as (_ & _ & E). congruence.
Qed.

Lemma not_in_spaces c n : c <> 32%N -> ~ In c (spaces n).
Proof. intros H Hin. apply repeat_spec in Hin. congruence. Qed.

Lemma leaf_line n k v : wf_key k -> wf_value v ->
  entry_line n (spaces n ++ k ++ lit ": " ++ v).
Proof.
  intros Hk Hv. exists n, k, (32%N :: v). split; [lia|]. split; [exact Hk|]. split; [reflexivity|].
  destruct (wf_key_no_break k Hk) as [K1 K2]. destruct Hv as (_ & V1 & V2). split.
  - apply Forall_app; split; [apply spaces_no_linebreak|]. apply Forall_app; split; [exact K1|].
    repeat constructor. exact V1.
  - apply no_escape_app; [apply not_in_spaces; discriminate|].
    apply no_escape_app; [exact K2|].
    apply (no_escape_app (lit ": ") v); [|exact V2].
    simpl. intros [|[|[]]]; discriminate.
Qed.

Lemma node_line n k : wf_key k -> entry_line n (spaces n ++ k ++ lit ":").
Proof.
  intros Hk. exists n, k, []. split; [lia|]. split; [exact Hk|]. split; [reflexivity|].
  destruct (wf_key_no_break k Hk) as [K1 K2]. split.
  - apply Forall_app; split; [apply spaces_no_linebreak|]. apply Forall_app; split; [exact K1|].
    repeat constructor.
  - apply no_escape_app; [apply not_in_spaces; discriminate|].
    apply no_escape_app; [exact K2|]. intros p q E.
    destruct p as [|c [|d p]]; discriminate.
Qed.

Lemma entry_line_le m m' l : m <= m' -> entry_line m' l -> entry_line m l.
Proof. intros H (n & k & r & Hn & Hr). exists n, k, r. split; [lia|exact Hr]. Qed.

Lemma lines_of_entry_lines : forall t n k, wf_key k -> wf_tree t ->
  Forall (entry_line n) (lines_of n k t).
Proof.
  induction t as [v|es IH] using htree_ind'; intros n k Hk Ht; inversion Ht; subst.
  - constructor; [|constructor]. apply leaf_line; assumption.
  - rewrite lines_of_node. constructor; [apply node_line; assumption|].
    unfold lines_of_entries. apply Forall_flat_map.
    rewrite Forall_forall in *. intros [k' t'] He. cbn [fst snd].
    destruct (H0 _ He) as [H2 H3]. cbn [fst snd] in *.
    eapply Forall_impl; [|apply (IH _ He (n + 2) k' H2 H3)].
    intros l. apply entry_line_le. lia.
Qed.

Lemma entries_lines n es : wf_tree (HNode es) -> Forall (entry_line n) (lines_of_entries n es).
Proof.
  intros Ht. inversion Ht as [|es' H0 H1]; subst. unfold lines_of_entries. apply Forall_flat_map.
  rewrite Forall_forall in *. intros [k' t'] He. destruct (H0 _ He) as [H2 H3].
  apply lines_of_entry_lines; assumption.
Qed.

Lemma skipn_spaces n m x : skipn n (spaces (n + m) ++ x) = spaces m ++ x.
Proof. induction n; simpl; auto. Qed.

Lemma lines_of_shift n m : forall t k,
  map (skipn n) (lines_of (n + m) k t) = lines_of m k t.
Proof.
  intros t. revert m. induction t as [v|es IH] using htree_ind'; intros m k.
  - cbn [lines_of map]. rewrite skipn_spaces. reflexivity.
  - rewrite !lines_of_node. cbn [map]. rewrite skipn_spaces. f_equal.
    rewrite <- Nat.add_assoc.
    unfold lines_of_entries. induction IH as [|[k' t'] es He _ IHes]; [reflexivity|].
    cbn [flat_map fst snd]. rewrite map_app, He, IHes. reflexivity.
Qed.

(** ** The loop *)
Lemma skipn_no_escape n x :
  (forall a b, x <> a ++ 92%N :: 58%N :: b) ->
  forall a b, skipn n x <> a ++ 92%N :: 58%N :: b.
Proof.
  intros H a b E. apply (H (firstn n x ++ a) b). rewrite <- app_assoc, <- E.
  symmetry. apply firstn_skipn.
Qed.

Lemma sd_line_inside d k n l : entry_line (S n) l ->
  sd_line (d, Some k, Some n) l = append_line (skipn n l) (d, Some k, Some n).
Proof.
  intros (m & k' & r & Hm & Hk & -> & _ & He). unfold sd_line.
  rewrite match_entry_line by exact Hk. cbv beta iota.
  destruct (Nat.ltb_spec n m) as [_|]; [|lia].
  rewrite replace2_id; [reflexivity|]. apply skipn_no_escape. exact He.
Qed.

Lemma lookup_last {V} (d : dict str V) k v :
  ~ In k (keys d) -> lookup k (d ++ [(k, v)]) = Some v.
Proof.
  intros H. induction d as [|[k' v'] d IH]; simpl.
  - rewrite eqb_refl. reflexivity.
  - simpl in H. destruct (eqb_spec k k') as [->|]; [tauto|]. apply IH. tauto.
Qed.
Lemma set_last {V} (d : dict str V) k v v' :
  ~ In k (keys d) -> set k v' (d ++ [(k, v)]) = d ++ [(k, v')].
Proof.
  intros H. induction d as [|[k' w] d IH]; simpl.
  - rewrite eqb_refl. reflexivity.
  - simpl in H. destruct (eqb_spec k k') as [->|]; [tauto|]. f_equal. apply IH. tauto.
Qed.

Lemma fold_inside d k n ls : ~ In k (keys d) ->
  Forall (entry_line (S n)) ls -> forall v,
  fold_left sd_line ls (d ++ [(k, v)], Some k, Some n) =
  (d ++ [(k, v ++ map (skipn n) ls)], Some k, Some n).
Proof.
  intros Hk. induction 1 as [|l ls Hl _ IH]; intros v; cbn [fold_left map].
  - rewrite app_nil_r. reflexivity.
  - rewrite sd_line_inside by exact Hl. cbn [append_line].
    rewrite lookup_last, set_last by exact Hk. rewrite IH.
    rewrite <- app_assoc. reflexivity.
Qed.

(** the lines collected for an entry *)
Definition value_lines (t : htree) : list str :=
  match t with
  | HLeaf v => [v]
  | HNode es => [] :: lines_of_entries 2 es
  end.

Lemma sd_line_new d cur sp n k r : wf_key k -> ~ In k (keys d) ->
  (sp = None \/ sp = Some n) ->
  sd_line (d, cur, sp) (spaces n ++ k ++ colon :: r) =
  (d ++ [(k, [lstrip_p rx_space r])], Some k, Some n).
Proof.
  intros Hk Hd Hsp. unfold sd_line. rewrite match_entry_line by exact Hk. cbv beta iota.
  replace (match sp with Some n0 => Nat.ltb n0 n | None => false end) with false.
  2:{ destruct Hsp as [->| ->]; [reflexivity|]. rewrite Nat.ltb_irrefl. reflexivity. }
  rewrite strip_key by exact Hk.
  assert (E : lookup k d = None) by (apply lookup_None; exact Hd). rewrite E.
  rewrite set_new by (apply has_false; exact Hd). cbn [append_line].
  rewrite lookup_last, set_last by exact Hd. reflexivity.
Qed.

Lemma fold_entries n es : wf_tree (HNode es) -> forall d cur sp,
  (sp = None \/ sp = Some n) -> (forall k, In k (map fst es) -> ~ In k (keys d)) ->
  exists cur' sp', (sp' = None \/ sp' = Some n) /\
  fold_left sd_line (lines_of_entries n es) (d, cur, sp) =
  (d ++ map (fun e => (fst e, value_lines (snd e))) es, cur', sp').
Proof.
  intros Ht. inversion Ht as [|es' H0 H1]; subst. clear Ht.
  induction es as [|[k t] es IH]; intros d cur sp Hsp Hd.
  - exists cur, sp. split; [exact Hsp|]. simpl. rewrite app_nil_r. reflexivity.
  - apply Forall_cons_iff in H0 as [[Hk Ht] H0]. cbn [fst snd] in *.
    cbn [map] in H1. apply NoDup_cons_iff in H1 as [Hn H1].
    assert (Hkd : ~ In k (keys d)) by (apply Hd; left; reflexivity).
    assert (Hstep : exists cur2, fold_left sd_line (lines_of n k t) (d, cur, sp) =
                      (d ++ [(k, value_lines t)], cur2, Some n)).
    { exists (Some k). destruct t as [v|es'].
      - cbn [lines_of fold_left]. change (lit ": " ++ v) with (colon :: 32%N :: v).
        rewrite sd_line_new by assumption. inversion Ht; subst.
        rewrite lstrip_value by assumption. reflexivity.
      - rewrite lines_of_node. cbn [fold_left].
        change (lit ":") with [colon]. rewrite sd_line_new by assumption.
        cbn [lstrip_p]. rewrite fold_inside; [|exact Hkd|].
        + cbn [value_lines]. do 5 f_equal. cbn [app]. f_equal.
          unfold lines_of_entries. clear. induction es' as [|[k' t'] es' IH]; [reflexivity|].
          cbn [flat_map fst snd]. rewrite map_app, lines_of_shift, IH. reflexivity.
        + eapply Forall_impl; [|apply entries_lines; exact Ht]. intros l. apply entry_line_le. lia. }
    destruct Hstep as [cur2 Hstep].
    destruct (IH H0 H1 (d ++ [(k, value_lines t)]) cur2 (Some n)) as (cur' & sp' & Hsp' & E); auto.
    { intros k' Hk'. unfold keys. rewrite map_app, in_app_iff. simpl. intros [Hi|[->|[]]].
      - apply (Hd k'); [right; exact Hk'|exact Hi].
      - contradiction. }
    exists cur', sp'. split; [exact Hsp'|].
    unfold lines_of_entries in *. cbn [flat_map fst snd]. rewrite fold_left_app.
    rewrite Hstep. etransitivity; [exact E|].
    cbn [map fst snd]. rewrite <- app_assoc. reflexivity.
Qed.

(** ** The text of an entry *)
Lemma entry_line_ends m l : entry_line m l ->
  l <> [] /\ Forall (fun c => is_linebreak c = false) l.
Proof.
  intros (m' & k & r & _ & ((c & k' & -> & _) & _) & -> & Hl & _). split; [|exact Hl].
  destruct (spaces m'); discriminate.
Qed.

Lemma split_c_hd {A} `{EqDec A} (c : A) a b :
  ~ In c a -> exists w, hd nil (split_c c (a ++ b)) = a ++ w.
Proof.
  induction a as [|d a IH]; simpl; intros Hn; [eexists; reflexivity|].
  destruct (eqb_spec c d) as [->|_]; [tauto|].
  destruct IH as [w Hw]; [tauto|]. pose proof (split_c_nonnil c (a ++ b)) as N.
  destruct (split_c c (a ++ b)) as [|y ys]; [congruence|]. simpl in *. exists w. congruence.
Qed.

Lemma strip_quotes_line_id sp c r :
  forallb is_space sp = true -> is_space c = false -> is_quote c = false ->
  strip_quotes_line [39%N; 34%N] (sp ++ c :: r) = sp ++ c :: r.
Proof.
  intros Hsp Hc Hq.
  assert (Hgen : forall q, q <> c -> is_space q = false ->
            eqb (strip (hd nil (split_c q (sp ++ c :: r)))) nil = false).
  { intros q Hqc Hqs. change (c :: r) with ([c] ++ r). rewrite app_assoc.
    destruct (split_c_hd q (sp ++ [c]) r) as [w ->].
    - rewrite in_app_iff. simpl. intros [Hi|[Hi|[]]]; [|congruence].
      rewrite forallb_forall in Hsp. rewrite (Hsp q Hi) in Hqs. discriminate.
    - apply eqb_neq. unfold strip. rewrite strip_p_nil_iff, !forallb_app. simpl.
      rewrite Hc. rewrite andb_false_r. discriminate. }
  unfold is_quote in Hq. apply orb_false_iff in Hq as [Hq1 Hq2].
  apply N.eqb_neq in Hq1, Hq2.
  cbn [strip_quotes_line].
  rewrite (Hgen 39%N), (Hgen 34%N) by (congruence || reflexivity). cbn [andb].
  destruct (Nat.even (count_c 39%N (sp ++ c :: r))), (Nat.even (count_c 34%N (sp ++ c :: r))); reflexivity.
Qed.

Lemma entry_line_unquoted m l : entry_line m l -> strip_quotes_line [39%N; 34%N] l = l.
Proof.
  intros (m' & k & r & _ & ((c & k' & -> & Hc & Hq) & _) & -> & _).
  cbn [app]. apply strip_quotes_line_id; auto. apply spaces_space.
Qed.

Lemma nl_is_linebreak : is_linebreak nl = true. Proof. reflexivity. Qed.

Lemma no_nl l : Forall (fun c => is_linebreak c = false) l -> ~ In nl l.
Proof. intros H Hin. rewrite Forall_forall in H. specialize (H _ Hin). discriminate. Qed.

Lemma last_app_ne {A} (a b : list A) d : b <> [] -> last (a ++ b) d = last b d.
Proof.
  intros Hb. destruct (exists_last Hb) as (b' & z & ->). rewrite app_assoc, !last_last. reflexivity.
Qed.
Lemma last_default {A} (l : list A) d d' : l <> [] -> last l d = last l d'.
Proof. intros H. destruct (exists_last H) as (b' & z & ->). rewrite !last_last. reflexivity. Qed.

Lemma join_last {A} (sep : list A) ls w d :
  ls <> [] -> last ls w <> [] -> last (join sep ls) d = last (last ls w) d.
Proof.
  induction ls as [|l ls IH]; [congruence|]. intros _ Hl.
  destruct ls as [|l' ls]; [reflexivity|].
  rewrite join_cons by discriminate.
  assert (Hne : join sep (l' :: ls) <> []).
  { clear -Hl. revert l l' Hl. induction ls as [|l2 ls IH]; intros l l' Hl.
    - exact Hl.
    - rewrite join_cons by discriminate. intros E. apply app_eq_nil in E as [_ E].
      apply app_eq_nil in E as [_ E]. revert E. apply (IH l'). exact Hl. }
  rewrite app_assoc, last_app_ne by exact Hne.
  apply IH; [discriminate|]. exact Hl.
Qed.

Lemma strip_nl_join ls m : Forall (entry_line m) ls -> ls <> [] ->
  strip_c nl (join [nl] ls) = join [nl] ls.
Proof.
  intros Hl Hne. apply strip_p_id. destruct ls as [|l ls]; [congruence|]. split.
  - intros c r E. destruct (entry_line_ends m l) as [H1 H2]; [apply Forall_cons_iff in Hl; tauto|].
    destruct l as [|c' l]; [congruence|].
    assert (c = c') as ->.
    { destruct ls; [injection E; auto|]. rewrite join_cons in E by discriminate. injection E; auto. }
    apply Forall_cons_iff in H2 as [H2 _]. destruct (N.eqb_spec nl c') as [<-|]; [discriminate|reflexivity].
  - intros c r E.
    assert (Hlast : entry_line m (last (l :: ls) [])).
    { destruct (exists_last (l := l :: ls)) as (a & z & Ez); [discriminate|]. rewrite Ez, last_last.
      rewrite Ez in Hl. apply Forall_app in Hl as [_ Hl]. apply Forall_cons_iff in Hl. tauto. }
    destruct (entry_line_ends m _ Hlast) as [H1 H2].
    assert (Ec : c = last (last (l :: ls) []) 0%N).
    { rewrite <- (join_last [nl]) by assumption. rewrite E, last_last. reflexivity. }
    destruct (exists_last H1) as (a & z & Ez). rewrite Ez, last_last in Ec. subst c.
    rewrite Ez in H2. apply Forall_app in H2 as [_ H2]. apply Forall_cons_iff in H2 as [H2 _].
    destruct (N.eqb_spec nl z) as [<-|]; [discriminate|reflexivity].
Qed.

Lemma splitlines_entries ls m : Forall (entry_line m) ls -> splitlines (join [nl] ls) = ls.
Proof.
  intros Hl. destruct ls as [|l ls]; [reflexivity|].
  apply splitlines_join.
  - eapply Forall_impl; [|exact Hl]. intros x Hx. apply entry_line_ends in Hx. tauto.
  - destruct (exists_last (l := l :: ls)) as (a & z & Ez); [discriminate|]. rewrite Ez, last_last.
    rewrite Ez in Hl. apply Forall_app in Hl as [_ Hl]. apply Forall_cons_iff in Hl as [Hl _].
    apply entry_line_ends in Hl. tauto.
Qed.

Lemma unquote_entries ls m : Forall (entry_line m) ls ->
  strip_end_quotes (join [nl] ls) = join [nl] ls.
Proof.
  intros Hl. unfold strip_end_quotes.
  destruct ls as [|l ls]; [reflexivity|]. destruct ls as [|l' ls].
  - cbn [join]. apply Forall_cons_iff in Hl as [Hl _]. destruct (entry_line_ends m l Hl) as [_ H2].
    replace (mem nl l) with false by (symmetry; apply mem_not_In, no_nl, H2).
    eapply entry_line_unquoted. exact Hl.
  - replace (mem nl _) with true.
    2:{ symmetry. apply mem_In. rewrite join_cons by discriminate. apply in_app_iff. right. left. reflexivity. }
    rewrite (splitlines_entries _ m) by exact Hl. f_equal.
    remember (l :: l' :: ls) as L eqn:EL. clear EL. induction Hl as [|x L Hx _ IHL]; [reflexivity|].
    cbn [map]. rewrite IHL. f_equal. eapply entry_line_unquoted. exact Hx.
Qed.

Lemma entry_text_leaf b v : wf_value v -> entry_text b [v] = v.
Proof.
  intros (H1 & H2 & _). unfold entry_text. cbn [join].
  assert (E : strip_c nl v = v).
  { apply strip_p_id. rewrite Forall_forall in H2. split; intros c r ->.
    - destruct (N.eqb_spec nl c) as [<-|]; [|reflexivity]. specialize (H2 nl (or_introl eq_refl)). discriminate.
    - destruct (N.eqb_spec nl c) as [<-|]; [|reflexivity].
      assert (Hi : In nl (r ++ [nl])) by (apply in_app_iff; simpl; auto). specialize (H2 nl Hi). discriminate. }
  rewrite E. destruct b; [|reflexivity]. unfold strip_end_quotes.
  replace (mem nl v) with false by (symmetry; apply mem_not_In, no_nl, H2).
  destruct v as [|c r]; [reflexivity|]. destruct (H1 c r eq_refl) as [Hs Hq].
  apply (strip_quotes_line_id [] c r); auto.
Qed.

Lemma entry_text_node b es : wf_tree (HNode es) ->
  entry_text b (value_lines (HNode es)) = written 2 es.
Proof.
  intros Ht. pose proof (entries_lines 2 es Ht) as Hl.
  unfold entry_text, written, value_lines. fold nl.
  destruct (lines_of_entries 2 es) as [|l ls] eqn:E; [destruct b; reflexivity|].
  rewrite join_cons by discriminate. rewrite <- E in *.
  assert (Es : strip_c nl ([] ++ [nl] ++ join [nl] (lines_of_entries 2 es)) =
               join [nl] (lines_of_entries 2 es)).
  { unfold strip_c. cbn [app]. rewrite <- (strip_nl_join _ 2 Hl) at 2 by (rewrite E; discriminate).
    unfold strip_c, strip_p. cbn [lstrip_p]. rewrite N.eqb_refl. reflexivity. }
  rewrite Es. destruct b; [|reflexivity]. apply (unquote_entries _ 2). exact Hl.
Qed.

Lemma written_dict b n es : wf_tree (HNode es) ->
  str_to_dict b (written n es) =
  map (fun e => (fst e, match snd e with HLeaf v => v | HNode es' => written 2 es' end)) es.
Proof.
  intros Ht. unfold str_to_dict, written. fold nl.
  rewrite (splitlines_entries _ n) by (apply entries_lines; exact Ht).
  destruct (fold_entries n es Ht [] None None) as (cur & sp & _ & E); auto.
  match goal with |- (let '(_, _) := ?x in _) = _ => replace x with
    (([] : dict str (list str)) ++ map (fun e => (fst e, value_lines (snd e))) es, cur, sp)
    by (symmetry; exact E) end.
  cbn [app]. rewrite map_map. apply map_ext_in. intros [k t] He. cbn [fst snd].
  inversion Ht as [|es' H0 _]; subst. rewrite Forall_forall in H0.
  destruct (H0 _ He) as [_ Hw]. cbn [snd] in Hw. f_equal. destruct t as [v|es'].
  - inversion Hw; subst. apply entry_text_leaf. assumption.
  - apply entry_text_node. exact Hw.
Qed.

Lemma written_reads : forall t, wf_tree t -> forall n,
  reads_as match t with HLeaf v => v | HNode es => written n es end t.
Proof.
  induction t as [v|es IH] using htree_ind'; intros Ht n; [constructor|].
  constructor. rewrite written_dict by exact Ht.
  inversion Ht as [|es' H0 _]; subst. clear Ht.
  induction es as [|[k t] es IHes]; cbn [map]; constructor.
  - cbn [fst snd]. split; [reflexivity|]. apply Forall_cons_iff in IH as [IH _].
    apply Forall_cons_iff in H0 as [[_ H0] _]. apply (IH H0 2).
  - apply Forall_cons_iff in IH as [_ IH]. apply Forall_cons_iff in H0 as [_ H0]. auto.
Qed.

(** ** Header blocks *)
Lemma header_line_parts l r : header_line l -> forall a b,
  l ++ r = a ++ b -> forallb rx_space a = true -> forall c b', b = c :: b' -> c <> 45%N /\ c <> 10%N.
Proof.
  intros ((sp & c & r' & -> & Hsp & Hc & Hd) & Hn) a b E Ha c' b' ->.
  rewrite <- app_assoc in E. cbn [app] in E.
  assert (Hcase : In c' sp \/ c' = c).
  { revert a E Ha. clear -Hc. induction sp as [|s sp IH]; intros a E Ha.
    - destruct a as [|x a]; [injection E; auto|]. injection E as <- _.
      simpl in Ha. rewrite (not_space_rx _ Hc) in Ha. discriminate.
    - destruct a as [|x a].
      + injection E as <- _. left. left. reflexivity.
      + injection E as <- E. simpl in Ha. apply andb_true_iff in Ha as [_ Ha].
        destruct (IH a E Ha) as [Hi| ->]; [left; right; exact Hi|auto]. }
  destruct Hcase as [Hi| ->].
  - rewrite Forall_forall in Hsp. specialize (Hsp _ Hi). split.
    + intros ->. discriminate.
    + intros ->. apply Hn. apply in_app_iff. auto.
  - split; [exact Hd|]. intros ->. apply Hn. apply in_app_iff. simpl. auto.
Qed.

Lemma header_line_nonempty l : header_line l -> l <> [].
Proof. intros ((sp & c & r & -> & _) & _). destruct sp; discriminate. Qed.

Lemma eat_dash_None k x : 1 <= k -> (forall c r, x = c :: r -> c <> 45%N) ->
  eat (repeat dash k) x = None.
Proof.
  destruct k as [|k]; [lia|]. intros _ H. cbn [repeat eat]. destruct x as [|c x]; [reflexivity|].
  destruct (eqb_spec dash c) as [<-|]; [|reflexivity]. exfalso. apply (H dash x); reflexivity.
Qed.

(** a position just after a newline inside the body starts a line *)
Lemma body_line lines : Forall header_line lines -> lines <> [] ->
  forall a b r, join [10%N] lines ++ r = a ++ 10%N :: b -> length a < length (join [10%N] lines) ->
  exists l r', header_line l /\ b = l ++ r'.
Proof.
  induction 1 as [|l ls Hl Hls IH]; [congruence|]. intros _ a b r E Hlen.
  destruct ls as [|l' ls].
  - cbn [join] in *. exfalso. destruct Hl as [_ Hn]. apply Hn.
    assert (Hin : nth_error (l ++ r) (length a) = Some 10%N)
      by (rewrite E, nth_error_app2, Nat.sub_diag by lia; reflexivity).
    rewrite nth_error_app1 in Hin by exact Hlen. apply nth_error_In in Hin. exact Hin.
  - rewrite join_cons in E, Hlen by discriminate. cbn [app] in E, Hlen.
    rewrite <- app_assoc in E. cbn [app] in E.
    rewrite app_length in Hlen. cbn [length] in Hlen.
    destruct (Nat.lt_trichotomy (length a) (length l)) as [Hlt|[Heq|Hgt]].
    + exfalso. destruct Hl as [_ Hn]. apply Hn.
      assert (Hin : nth_error (l ++ 10%N :: join [10%N] (l' :: ls) ++ r) (length a) = Some 10%N)
        by (rewrite E, nth_error_app2, Nat.sub_diag by lia; reflexivity).
      rewrite nth_error_app1 in Hin by exact Hlt. apply nth_error_In in Hin. exact Hin.
    + assert (Eb : b = join [10%N] (l' :: ls) ++ r).
      { apply (f_equal (skipn (S (length a)))) in E.
        rewrite Heq in E at 1. change (S (length l)) with (1 + length l) in E.
        change (S (length a)) with (1 + length a) in E.
        rewrite !skipn_app in E.
        rewrite (skipn_all2 l) in E by lia. rewrite (skipn_all2 a) in E by lia.
        replace (1 + length l - length l) with 1 in E by lia.
        replace (1 + length a - length a) with 1 in E by lia.
        cbn [app skipn] in E. symmetry. exact E. }
      apply Forall_cons_iff in Hls as [Hl' _]. exists l'.
      destruct ls as [|l2 ls].
      * exists r. split; [exact Hl'|exact Eb].
      * rewrite join_cons in Eb by discriminate. exists ([10%N] ++ join [10%N] (l2 :: ls) ++ r).
        split; [exact Hl'|]. rewrite Eb, <- !app_assoc. reflexivity.
    + assert (Ea : exists a', a = l ++ 10%N :: a').
      { exists (skipn (S (length l)) a).
        assert (Hf : firstn (S (length l)) a = l ++ [10%N]).
        { apply (f_equal (firstn (S (length l)))) in E.
          rewrite (firstn_app _ a) in E. replace (S (length l) - length a) with 0 in E by lia.
          rewrite firstn_O, app_nil_r in E. rewrite <- E, firstn_app, firstn_all2 by lia.
          replace (S (length l) - length l) with 1 by lia. reflexivity. }
        rewrite <- (firstn_skipn (S (length l)) a) at 1. rewrite Hf, <- app_assoc. reflexivity. }
      destruct Ea as [a' ->]. rewrite <- app_assoc in E. cbn [app] in E.
      apply app_inv_head in E. injection E as E.
      apply (IH ltac:(discriminate) a' b r E). rewrite app_length in Hlen. cbn [length] in Hlen. lia.
Qed.

Lemma match_header_block sp k lines rest :
  Forall (fun c => rx_space c = true) sp -> 3 <= k ->
  lines <> [] -> Forall header_line lines ->
  match_header (sp ++ repeat 45%N k ++ [10%N] ++ join [10%N] lines ++ [10%N] ++ repeat 45%N k
                ++ [10%N] ++ rest)
  = Some (join [10%N] lines, rest).
Proof.
  intros Hsp Hk Hne Hl. unfold match_header.
  apply first_match_greedy.
  { apply forallb_forall, Forall_forall. exact Hsp. }
  { intros c r' E. destruct k; [lia|]. injection E as <- _. reflexivity. }
  cbn [snd]. apply first_match_greedy.
  { apply forallb_forall. intros x Hx. apply repeat_spec in Hx. subst. reflexivity. }
  { intros c r' E. injection E as <- _. reflexivity. }
  cbn [fst snd]. rewrite repeat_length. destruct (Nat.ltb_spec k 3) as [|_]; [lia|].
  rewrite first_match_greedy_last.
  - cbn [snd app]. change (N.eqb 10 nl) with true. cbv iota.
    apply first_match_plus_lazy.
    + destruct lines as [|l ls]; [congruence|]. apply Forall_cons_iff in Hl as [Hl _].
      apply header_line_nonempty in Hl. destruct ls; [exact Hl|]. rewrite join_cons by discriminate.
      destruct l; [congruence|discriminate].
    + apply forallb_forall. reflexivity.
    + intros a b E Ha Hb. cbn [snd]. destruct b as [|c b]; [congruence|]. cbn [app].
      destruct (N.eqb_spec c nl) as [->|]; [|reflexivity].
      apply first_match_None. intros [p q] Hpq. cbn [snd].
      apply star_greedy_In in Hpq as [Epq Hp].
      destruct (body_line lines Hl Hne a
                  (b ++ 10%N :: repeat 45%N k ++ 10%N :: rest)
                  (10%N :: repeat 45%N k ++ 10%N :: rest)) as (l & r' & Hll & El).
      * rewrite E, <- app_assoc. reflexivity.
      * rewrite E, app_length. simpl. lia.
      * rewrite eat_dash_None; [reflexivity|lia|]. intros c r Eq.
        rewrite El in Epq. apply (header_line_parts l r' Hll p q Epq Hp c r Eq).
    + cbn [snd]. change (N.eqb 10 nl) with true. cbv iota.
      apply (first_match_greedy rx_space _ [] (repeat 45%N k ++ 10%N :: rest)).
      * reflexivity.
      * intros c r' E. destruct k; [lia|]. injection E as <- _. reflexivity.
      * cbn [fst snd].
        assert (E : eat (repeat 45%N k) (repeat 45%N k ++ 10%N :: rest) = Some (10%N :: rest))
          by (apply eat_iff; reflexivity).
        rewrite E. reflexivity.
  - intros p r E Hp Hps. cbn [snd].
    destruct p as [|c p]; [congruence|]. injection E as <- E.
    simpl in Hps. destruct r as [|c r]; [reflexivity|].
    destruct lines as [|l ls]; [congruence|]. apply Forall_cons_iff in Hl as [Hl _].
    assert (Hc : c <> 45%N /\ c <> 10%N).
    { destruct ls as [|l' ls].
      - eapply (header_line_parts l _ Hl p (c :: r) E Hps c r eq_refl).
      - rewrite join_cons in E by discriminate. rewrite <- app_assoc in E.
        eapply (header_line_parts l _ Hl p (c :: r) E Hps c r eq_refl). }
    destruct (N.eqb_spec c nl) as [->|]; [|reflexivity]. destruct Hc as [_ Hc]. exfalso. apply Hc. reflexivity.
Qed.

Lemma entry_line_header m l :
  (exists m' k r, m <= m' /\ wf_key k /\ hd 0%N k <> 45%N /\ l = spaces m' ++ k ++ colon :: r) ->
  Forall (fun c => is_linebreak c = false) l -> header_line l.
Proof.
  intros (m' & k & r & _ & ((c & k' & -> & Hc & _) & _) & Hd & ->) Hl. split.
  - exists (spaces m'), c, (k' ++ colon :: r). repeat split; auto.
    apply Forall_forall. intros x Hx. apply repeat_spec in Hx. subst. reflexivity.
  - apply no_nl. exact Hl.
Qed.

Lemma lines_of_header : forall t n k, wf_key k -> hd 0%N k <> 45%N -> wf_tree t -> no_dash t ->
  Forall header_line (lines_of n k t).
Proof.
  induction t as [v|es IH] using htree_ind'; intros n k Hk Hd Ht Hn.
  - inversion Ht; subst. constructor; [|constructor]. apply (entry_line_header n).
    + exists n, k, (32%N :: v). auto.
    + destruct (leaf_line n k v) as (_ & _ & _ & _ & _ & _ & H & _); auto.
  - inversion Ht as [|es' H0 H1]; subst. inversion Hn as [|es' N0]; subst.
    rewrite lines_of_node. constructor.
    + apply (entry_line_header n).
      * exists n, k, []. auto.
      * destruct (node_line n k) as (_ & _ & _ & _ & _ & _ & H & _); auto.
    + unfold lines_of_entries. apply Forall_flat_map. rewrite Forall_forall in *.
      intros [k' t'] He. destruct (H0 _ He) as [H2 H3]. destruct (N0 _ He) as [N2 N3].
      apply (IH _ He); assumption.
Qed.

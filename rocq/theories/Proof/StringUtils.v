(** Lemmas for Props/StringUtils.v *)
From Coq Require Import List Bool Arith NArith Lia.
From Verif.Base Require Import Str StrFacts PyText Result ListFacts.
From Verif.Model Require Import StringUtils.
From Verif.Spec Require Import StringUtils.
Import ListNotations.

(** ** Prefixes *)
Lemma is_prefix_startswith p s : is_prefix p s <-> startswith s p = true.
Proof. unfold is_prefix. rewrite startswith_iff. reflexivity. Qed.

Lemma base_found_iff p l : base_found p l = true <-> forall s, In s l -> is_prefix p s.
Proof.
  unfold base_found. rewrite forallb_forall.
  split; intros H s Hs; specialize (H s Hs); apply is_prefix_startswith; exact H.
Qed.

Lemma drop_last_1 {A} (a : list A) c : drop_last 1 (a ++ [c]) = a.
Proof. apply (drop_last_app a [c]). Qed.

Lemma base_loop_spec l : forall n base, length base <= n ->
  let b := base_loop n base l in
  is_prefix b base /\ base_found b l = true /\
  forall p, is_prefix p base -> base_found p l = true -> is_prefix p b.
Proof.
  assert (Hnil : base_found [] l = true).
  { apply base_found_iff. intros s _. exists s. reflexivity. }
  assert (Hdone : forall base, base_found base l = true ->
            is_prefix base base /\ base_found base l = true /\
            forall p, is_prefix p base -> base_found p l = true -> is_prefix p base).
  { intros base E. split; [exists []; rewrite app_nil_r; reflexivity|]. auto. }
  induction n as [|n IH]; intros base Hl; cbn [base_loop].
  - destruct base as [|c base]; [|simpl in Hl; lia]. apply Hdone. exact Hnil.
  - destruct (base_found base l) eqn:E; simpl.
    + apply Hdone. exact E.
    + destruct (eqb_spec base []) as [->|Hne]; [congruence|].
      destruct (exists_last Hne) as (a & c & ->). simpl. rewrite drop_last_1.
      rewrite app_length in Hl. simpl in Hl.
      destruct (IH a ltac:(lia)) as (H1 & H2 & H3).
      split; [|split].
      * destruct H1 as [r Hr]. exists (r ++ [c]). rewrite app_assoc, <- Hr. reflexivity.
      * exact H2.
      * intros p [r Hr] Hf. apply H3; [|exact Hf].
        destruct r as [|d r0] using rev_ind.
        -- rewrite app_nil_r in Hr. subst p. congruence.
        -- rewrite app_assoc in Hr. apply app_inj_tail in Hr as [-> _]. exists r0. reflexivity.
Qed.

(** ** Splitting *)
Lemma is_stripped_strip s t : is_stripped s t <-> strip s = t.
Proof.
  split.
  - intros (a & b & -> & Hab & H1 & H2). apply Forall_app in Hab as [Ha Hb].
    apply strip_p_unique; [| |split; assumption]; apply forallb_forall; apply Forall_forall; assumption.
  - intros <-. destruct (strip_p_decomp is_space s) as (p & q & E & Hp & Hq & [H1 H2]).
    exists p, q. split; [exact E|]. split; [|split; assumption].
    apply Forall_app. rewrite !Forall_forall. rewrite !forallb_forall in *. auto.
Qed.

Lemma pieces_of_split c s ps : pieces_of c s ps <-> split_c c s = ps.
Proof.
  split.
  - intros (E & Hne & Hf). rewrite <- E. apply split_c_join; [exact Hne|].
    intros w Hw. rewrite Forall_forall in Hf. apply Hf. exact Hw.
  - intros <-. split; [apply join_split_c|]. split; [apply split_c_nonnil|].
    apply Forall_forall. intros w Hw. eapply split_c_no_sep. exact Hw.
Qed.

Lemma Forall2_map_iff {A B} (f : A -> B) l l' :
  Forall2 (fun a b => f a = b) l l' <-> map f l = l'.
Proof.
  split.
  - intros H. induction H; [reflexivity|]. simpl. f_equal; auto.
  - intros <-. induction l; simpl; constructor; auto.
Qed.

Lemma split_c_length_1 {A} `{EqDec A} (c : A) s : Nat.ltb 1 (length (split_c c s)) = mem c s.
Proof.
  destruct (mem c s) eqn:E.
  - apply mem_In, in_split in E as (a & b & ->). apply Nat.ltb_lt.
    clear. induction a as [|d a IH]; simpl.
    + rewrite eqb_refl. simpl. pose proof (split_c_nonnil c b). destruct (split_c c b); simpl; [congruence|lia].
    + destruct (eqb c d); simpl; [lia|]. destruct (split_c c (a ++ c :: b)); simpl in *; lia.
  - apply mem_not_In in E. rewrite split_c_fresh by exact E. reflexivity.
Qed.

Lemma strip_blank_false s : strip s = [] -> s = [] \/ exists c, In c s /\ is_space c = true.
Proof.
  unfold strip. rewrite strip_p_nil_iff. destruct s as [|c s]; [auto|].
  simpl. rewrite andb_true_iff. intros [H _]. right. exists c. auto.
Qed.

Lemma clean_strip s : clean_item s -> strip s = s /\ s <> [].
Proof. intros [H1 H2]. apply is_stripped_strip in H2. auto. Qed.

Lemma map_strip_clean l : Forall clean_item l -> map strip l = l.
Proof.
  induction 1 as [|s l Hs Hl IH]; [reflexivity|]. simpl. rewrite IH.
  f_equal. apply clean_strip. exact Hs.
Qed.

Lemma join_not_In {A} (c : A) sep l :
  ~ In c sep -> Forall (fun w => ~ In c w) l -> ~ In c (join sep l).
Proof.
  intros Hs. induction 1 as [|w l Hw Hl IH]; [auto|].
  destruct l as [|w' l]; [exact Hw|].
  rewrite join_cons by discriminate. rewrite !in_app_iff. tauto.
Qed.

(** ** Grouping *)
Fixpoint group_list (run : option str) (l : list node) : list node :=
  match l with
  | nil => flush run
  | x :: r =>
      if negb (truthy x) then group_list run r
      else match x with
           | NStr s => group_list (Some (match run with Some p => p | None => nil end ++ s)) r
           | _ => flush run ++ group_strings x :: group_list None r
           end
  end.
Lemma group_strings_list l : group_strings (NList l) = NList (group_list None l).
Proof. reflexivity. Qed.

Section NodeInd.
  Variable P : node -> Prop.
  Hypothesis Hs : forall s, P (NStr s).
  Hypothesis Ht : forall i c, P c -> P (NTag i c).
  Hypothesis Hl : forall l, Forall P l -> P (NList l).
  Hypothesis Ho : forall i t, P (NObj i t).
  Fixpoint node_ind' (v : node) : P v :=
    match v with
    | NStr s => Hs s
    | NTag i c => Ht i c (node_ind' c)
    | NList l => Hl l ((fix go l : Forall P l :=
                          match l with
                          | nil => Forall_nil P
                          | x :: r => Forall_cons x (node_ind' x) (go r)
                          end) l)
    | NObj i t => Ho i t
    end.
End NodeInd.

Lemma tag_truthy i c : truthy (NTag i c) = true <-> c <> NList [].
Proof. destruct c as [s|j d|[|x l]|j t]; cbn; split; congruence. Qed.
Lemma falsy_events v : no_hollow_tag v -> truthy v = false -> events v = [].
Proof.
  destruct v as [s|i c|l|i t]; intros Hv.
  - simpl. destruct (eqb_spec s []) as [->|]; [reflexivity|discriminate].
  - inversion Hv as [| |i' c' Hc _|]; subst. apply (tag_truthy i c) in Hc. congruence.
  - destruct l; [reflexivity|discriminate].
  - simpl. intros ->. reflexivity.
Qed.

Definition run_events (run : option str) : list event :=
  match run with Some s => map Char s | None => [] end.

Lemma flush_events run : flat_map events (flush run) = run_events run.
Proof. destruct run; simpl; [apply app_nil_r|reflexivity]. Qed.

Lemma group_events : forall v, no_hollow_tag v -> events (group_strings v) = events v.
Proof.
  induction v as [s|i c IH|l IH|i t] using node_ind'; intros Hv; try reflexivity.
  - inversion Hv; subst. simpl. rewrite IH by assumption. reflexivity.
  - inversion Hv as [| | |l' Hl]; subst. rewrite group_strings_list. cbn [events]. clear Hv.
    change (flat_map events l) with (run_events None ++ flat_map events l).
    generalize (@None str) as run.
    induction IH as [|x l Hx _ IHl]; intros run; cbn [group_list flat_map].
    + rewrite app_nil_r. apply flush_events.
    + apply Forall_cons_iff in Hl as [Hv Hl]. specialize (IHl Hl). specialize (Hx Hv).
      destruct (truthy x) eqn:Et; cbn [negb].
      2:{ rewrite IHl, (falsy_events x Hv Et). reflexivity. }
      destruct x as [s|i c|l'|i t].
      * rewrite IHl. destruct run as [p|]; simpl; rewrite ?map_app, ?app_assoc; reflexivity.
      * rewrite flat_map_app, flush_events. cbn [flat_map]. rewrite Hx, IHl. reflexivity.
      * rewrite flat_map_app, flush_events. cbn [flat_map]. rewrite Hx, IHl. reflexivity.
      * rewrite flat_map_app, flush_events. cbn [flat_map]. rewrite Hx, IHl. reflexivity.
Qed.

(** no empty strings and no neighbouring strings; [p] says that the previous
    item was a string *)
Fixpoint chain (p : bool) (l : list node) : Prop :=
  match l with
  | nil => True
  | NStr s :: r => p = false /\ s <> [] /\ chain true r
  | _ :: r => chain false r
  end.

Lemma chain_spec l : forall p, chain p l ->
  ~ In (NStr []) l /\
  (forall l1 a b l2, l = l1 ++ a :: b :: l2 -> ~ (is_str a /\ is_str b)) /\
  (p = true -> forall x r, l = x :: r -> ~ is_str x).
Proof.
  induction l as [|x l IH]; intros p Hc.
  - repeat split; auto; intros; try discriminate. destruct l1; discriminate.
  - assert (Hx : x <> NStr [] /\ (p = true -> ~ is_str x) /\
                 exists q, chain q l /\ (is_str x -> q = true)).
    { destruct x; simpl in Hc |- *; (split; [|split]); try discriminate; try tauto;
        try (exists false; split; [assumption|tauto]).
      - intros [= ->]. tauto.
      - destruct Hc as [-> _]. discriminate.
      - exists true. tauto. }
    destruct Hx as (H1 & H2 & q & Hq & H3). destruct (IH q Hq) as (I1 & I2 & I3).
    split; [|split].
    + simpl. intros [E|E]; [congruence|tauto].
    + intros l1 a b l2 E [Ha Hb]. destruct l1 as [|y l1].
      * injection E as -> E. apply (I3 (H3 Ha) b l2 E Hb).
      * injection E as _ E. apply (I2 l1 a b l2 E). split; assumption.
    + intros Hp x' r [= <- <-]. auto.
Qed.

Definition run_ok (run : option str) : Prop :=
  match run with Some s => s <> [] | None => True end.

Lemma group_not_str x : is_str (group_strings x) -> is_str x.
Proof. destruct x; simpl; auto. Qed.

Lemma chain_cons_other p x l : ~ is_str x -> chain false l -> chain p (x :: l).
Proof. destruct x; simpl; tauto. Qed.

Lemma group_list_chain l : forall run, run_ok run ->
  chain false (group_list run l).
Proof.
  induction l as [|x l IH]; intros run Hr.
  - destruct run; simpl; auto.
  - cbn [group_list]. destruct (truthy x) eqn:Et; cbn [negb]; [|apply IH; exact Hr].
    assert (Hother : ~ is_str x -> chain false (flush run ++ group_strings x :: group_list None l)).
    { intros Hx. specialize (IH None I). destruct run as [s|]; cbn [flush app].
      - cbn [chain]. split; [reflexivity|]. split; [exact Hr|].
        apply chain_cons_other; [|exact IH]. intros H. apply group_not_str in H. tauto.
      - apply chain_cons_other; [|exact IH]. intros H. apply group_not_str in H. tauto. }
    destruct x as [s|i c|l'|i t]; try (apply Hother; simpl; tauto).
    apply IH. simpl in Et. destruct (eqb_spec s []) as [|Hne]; [discriminate|].
    destruct run as [p|]; simpl; [|exact Hne].
    intros E. apply app_eq_nil in E as [_ E]. congruence.
Qed.

Lemma group_list_Forall (P : node -> Prop) l :
  (forall s, s <> [] -> P (NStr s)) ->
  (forall x, In x l -> truthy x = true -> ~ is_str x -> P (group_strings x)) ->
  forall run, run_ok run -> Forall P (group_list run l).
Proof.
  intros Hs. induction l as [|x l IH]; intros Hx run Hr.
  - destruct run; simpl; auto.
  - cbn [group_list]. destruct (truthy x) eqn:Et; cbn [negb];
      [|apply IH; [|exact Hr]; intros; apply Hx; simpl; auto].
    assert (IH' : forall run, run_ok run -> Forall P (group_list run l)).
    { apply IH. intros; apply Hx; simpl; auto. }
    assert (Hother : ~ is_str x -> Forall P (flush run ++ group_strings x :: group_list None l)).
    { intros Hn. apply Forall_app. split.
      - destruct run; simpl; auto.
      - constructor; [apply Hx; simpl; auto|]. apply IH'. exact I. }
    destruct x as [s|i c|l'|i t]; try (apply Hother; simpl; tauto).
    apply IH'. simpl in Et. destruct (eqb_spec s []) as [|Hne]; [discriminate|].
    destruct run as [p|]; simpl; [|exact Hne].
    intros E. apply app_eq_nil in E as [_ E]. congruence.
Qed.

Lemma group_grouped : forall v, grouped (group_strings v).
Proof.
  induction v as [s|i c IH|l IH|i t] using node_ind'.
  - apply grouped_str.
  - apply grouped_tag. exact IH.
  - rewrite group_strings_list.
    destruct (chain_spec _ _ (group_list_chain l None I)) as (H1 & H2 & _).
    constructor; auto. apply group_list_Forall; auto.
    + intros. constructor.
    + intros x Hx _ _. rewrite Forall_forall in IH. auto.
    + exact I.
  - apply grouped_obj.
Qed.

(** fixed points *)
Inductive normal : node -> Prop :=
| normal_str s : normal (NStr s)
| normal_obj i t : normal (NObj i t)
| normal_tag i c : normal c -> normal (NTag i c)
| normal_list l : Forall normal l -> Forall (fun x => truthy x = true) l -> chain false l ->
    normal (NList l).

Lemma group_list_normal l :
  Forall (fun x => group_strings x = x) l -> Forall (fun x => truthy x = true) l ->
  forall p, chain p l ->
  (p = false -> group_list None l = l) /\
  (p = true -> forall s, group_list (Some s) l = NStr s :: l).
Proof.
  induction 1 as [|x l Hx Hl IH]; intros Ht p Hc.
  - split; reflexivity.
  - apply Forall_cons_iff in Ht as [Hxt Ht].
    assert (Hother : ~ is_str x -> chain false l -> forall run,
              flush run ++ group_strings x :: group_list None l = flush run ++ x :: l).
    { intros _ Hf run. destruct (IH Ht false Hf) as [E _]. rewrite Hx, E; reflexivity. }
    destruct x as [s|i c|l'|i t];
      (split; [intros ->|intros ->; intros s0]); cbn [group_list]; rewrite Hxt; cbn [negb];
      try (rewrite Hother; [reflexivity|simpl; tauto|exact Hc]).
    + simpl in Hc. destruct Hc as (_ & _ & Hc). destruct (IH Ht true Hc) as [_ E].
      apply E. reflexivity.
    + simpl in Hc. destruct Hc as [Hc _]. discriminate.
Qed.

Lemma normal_fixed : forall v, normal v -> group_strings v = v.
Proof.
  induction v as [s|i c IH|l IH|i t] using node_ind'; intros Hn; try reflexivity.
  - simpl. inversion Hn; subst. rewrite IH by assumption. reflexivity.
  - inversion Hn as [| | |l0 N1 N2 N3]; subst. rewrite group_strings_list. f_equal.
    assert (Hf : Forall (fun x => group_strings x = x) l).
    { rewrite Forall_forall in *. intros x Hx. apply IH; auto. }
    destruct (group_list_normal l Hf N2 false N3) as [E _]. auto.
Qed.

Lemma plain_no_hollow : forall v, plain_content v -> no_hollow_tag v.
Proof.
  induction v as [s|i c IH|l IH|i t] using node_ind'; intros Hp; inversion Hp; subst; constructor.
  - intros ->. eapply H2; reflexivity.
  - auto.
  - rewrite Forall_forall in *. auto.
Qed.
Lemma group_normal : forall v, plain_content v -> normal (group_strings v).
Proof.
  induction v as [s|i c IH|l IH|i t] using node_ind'; intros Hp; try solve [simpl; constructor].
  - simpl. constructor. apply IH. inversion Hp. assumption.
  - inversion Hp as [| | |l0 N1 N2]; subst. rewrite group_strings_list. constructor.
    + apply group_list_Forall; [constructor| |exact I].
      intros x Hx _ _. rewrite Forall_forall in *. apply IH; auto.
    + apply group_list_Forall; [| |exact I].
      * intros s Hs. simpl. destruct (eqb_spec s []); auto.
      * intros x Hx Hxt Hns. rewrite Forall_forall in N1. specialize (N1 x Hx).
        destruct x as [s|i c|l'|i t]; auto.
        -- inversion N1 as [| |i' c' Hc He|]; subst. cbn [group_strings]. apply tag_truthy. intros E.
           destruct c as [s|j d|l'|j t]; try discriminate E.
           apply (He l' eq_refl). rewrite <- group_events by (apply plain_no_hollow; exact Hc).
           rewrite E. reflexivity.
        -- exfalso. apply (N2 l' Hx).
    + apply group_list_chain. exact I.
Qed.

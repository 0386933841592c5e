From Coq Require Import List Bool Arith NArith Lia.
From Verif.Base Require Import Str StrFacts Dict DictFacts Result PurePath.
From Verif.Model Require Import Hash Decider Builders.
From Verif.Spec Require Import Decider Builders.
From Verif.Proof Require Import Decider.
Import ListNotations.

Lemma bind_ok {A B} (r : result A) (f : A -> result B) y : bind r f = Ok y -> exists a, r = Ok a /\ f a = Ok y.
Proof. destruct r; cbn; intros H; [eauto|discriminate]. Qed.
Tactic Notation "unbind" hyp(H) "as" simple_intropattern(x) simple_intropattern(E) := apply bind_ok in H; destruct H as (x & E & H).

Lemma builder_rect' (P : builder -> Prop) : (forall l, P (Leaf l)) -> (forall c l, Forall P l -> P (Comp c l)) -> forall b, P b.
Proof.
  intros HL HC. fix IH 1. intros [l|c l]; [apply HL|]. apply HC. induction l; constructor; auto.
Qed.

Lemma status_eqb_eq x y : status_eqb x y = true <-> x = y.
Proof. destruct x, y; cbn; split; congruence. Qed.
Lemma status_eqb_neq x y : status_eqb x y = false <-> x <> y.
Proof. rewrite <- status_eqb_eq. destruct (status_eqb x y); split; congruence. Qed.

(** First open status *)
Lemma first_open_cons x l : first_open (x :: l) = if status_eqb x Done then first_open l else x.
Proof. unfold first_open. cbn. now destruct (status_eqb x Done). Qed.
Lemma first_open_app l1 l2 : first_open (l1 ++ l2) = if status_eqb (first_open l1) Done then first_open l2 else first_open l1.
Proof.
  induction l1 as [|x l1 IH]; [reflexivity|]. cbn [app]. rewrite !first_open_cons. destruct (status_eqb x Done) eqn:E; auto. now rewrite E.
Qed.
Lemma first_open_done l : first_open l = Done <-> Forall (eq Done) l.
Proof.
  induction l as [|x l IH]; [split; auto|]. rewrite first_open_cons. destruct (status_eqb x Done) eqn:E.
  - apply status_eqb_eq in E as ->. rewrite IH. split; intros H; [constructor; auto|now inversion H].
  - apply status_eqb_neq in E. split; intros H; [congruence|]. inversion H; congruence.
Qed.
Lemma first_open_other l st : first_open l = st -> st <> Done ->
  exists l1 l2, l = l1 ++ st :: l2 /\ Forall (eq Done) l1.
Proof.
  intros <-. induction l as [|x l IH]; [intros H; now contradiction H|]. rewrite first_open_cons. destruct (status_eqb x Done) eqn:E.
  - intros H. destruct (IH H) as (l1 & l2 & E1 & F). exists (x :: l1), l2. split; [cbn; now rewrite <- E1|].
    constructor; auto. symmetry. now apply status_eqb_eq.
  - intros _. exists nil, l. auto.
Qed.

(** Last seen *)
Lemma last_seen_app id t1 t2 : last_seen id (t1 ++ t2) = match last_seen id t2 with Some st => Some st | None => last_seen id t1 end.
Proof.
  induction t1 as [|e t1 IH]; cbn; [now destruct (last_seen id t2)|]. rewrite IH. now destruct (last_seen id t2).
Qed.
Definition about (e : entry) : nat := match e with Seen i _ => i | Started i => i end.
Lemma last_seen_none id t : ~ In id (map about t) -> last_seen id t = None.
Proof.
  induction t as [|e t IH]; cbn; auto. intros H. rewrite IH by tauto. destruct e as [i st|i]; auto. cbn in H.
  destruct (Nat.eqb_spec i id); auto. subst. tauto.
Qed.
Lemma last_seen_right id t1 t2 st : last_seen id t2 = Some st -> last_seen id (t1 ++ t2) = Some st.
Proof. intros H. rewrite last_seen_app, H. reflexivity. Qed.
Lemma last_seen_left id t1 t2 st : ~ In id (map about t2) -> last_seen id t1 = Some st -> last_seen id (t1 ++ t2) = Some st.
Proof. intros H E. rewrite last_seen_app, last_seen_none; auto. Qed.
Definition no_start (t : list entry) := forall id, ~ In (Started id) t.
Lemma no_start_app t1 t2 : no_start t1 -> no_start t2 -> no_start (t1 ++ t2).
Proof. intros H1 H2 id H. apply in_app_or in H as [H|H]; [eapply H1|eapply H2]; eauto. Qed.

(** Ids and order *)
Definition idsl (l : list builder) : list nat := flat_map ids l.
Lemma ids_comp c l : ids (Comp c l) = idsl l.
Proof. unfold ids, idsl. cbn. induction l; cbn; auto. now rewrite map_app, IHl. Qed.
Lemma before_cons c b l x y : before (Comp c (b :: l)) x y <->
  (parallel c = false /\ In x (ids b) /\ In y (idsl l)) \/ before b x y \/ before (Comp c l) x y.
Proof.
  split.
  - intros H. remember (Comp c (b :: l)) as B eqn:E. destruct H as [c' l1 b1 l2 b2 l3 x y Hp Hx Hy|c' l' b' x y Hi Hb].
    + injection E as -> E. destruct l1 as [|z l1]; injection E as -> <-.
      * left. split; auto. split; auto. unfold idsl. rewrite flat_map_app. apply in_or_app. right. cbn. apply in_or_app. now left.
      * right. right. now constructor.
    + injection E as -> ->. destruct Hi as [->|Hi]; auto. right. right. eapply before_in; eauto.
  - intros [(Hp & Hx & Hy)|[H|H]].
    + unfold idsl in Hy. apply in_flat_map in Hy. destruct Hy as (b2 & Hb2 & Hy). apply in_split in Hb2. destruct Hb2 as (l2 & l3 & ->).
      apply (before_here c nil b l2 b2 l3); auto.
    + eapply before_in; [now left|exact H].
    + remember (Comp c l) as B eqn:E. destruct H as [c' l1 b1 l2 b2 l3 x y Hp Hx Hy|c' l' b' x y Hi Hb]; injection E as -> <-.
      * apply (before_here c (b :: l1)); auto.
      * eapply before_in; [right; exact Hi|auto].
Qed.
Lemma before_nil c x y : ~ before (Comp c nil) x y.
Proof. intros H. remember (Comp c nil) as B eqn:E. destruct H; injection E as -> E; [now destruct l1|]. subst. contradiction. Qed.
Lemma before_leaf l x y : ~ before (Leaf l) x y.
Proof. intros H. inversion H. Qed.
Lemma before_ids b x y : before b x y -> In x (ids b) /\ In y (ids b).
Proof.
  induction 1 as [c l1 b1 l2 b2 l3 x y Hp Hx Hy|c l b x y Hi Hb [IH1 IH2]]; rewrite ids_comp; unfold idsl.
  - split; apply in_flat_map; [exists b1|exists b2]; split; auto; apply in_or_app; right; [now left|right; apply in_or_app; right; now left].
  - split; apply in_flat_map; exists b; auto.
Qed.

Section B.
Variables (digest hexdigest encode bytes_str : str -> str).
Notation status_leaf := (status_leaf digest hexdigest encode bytes_str).
Notation status_base := (status_base digest hexdigest encode bytes_str).
Notation status_copy := (status_copy digest hexdigest encode bytes_str).
Notation status_of := (status_of digest hexdigest encode bytes_str).
Notation needed_of := (needed_of digest hexdigest encode bytes_str).
Notation decide := (decide digest hexdigest encode bytes_str).
Notation build := (build digest hexdigest encode bytes_str).
Notation build_leaf := (build_leaf digest hexdigest encode bytes_str).
Notation run_once := (run_once digest hexdigest encode bytes_str).
Notation clear_subs := (clear_subs digest hexdigest encode bytes_str).
Notation finish := (finish digest hexdigest encode bytes_str).
Notation build_complete := (build_complete digest hexdigest encode bytes_str).
Notation reads := (reads digest hexdigest encode bytes_str).

(** Reading *)
Lemma reads_app l1 l2 s a b s1 s2 : reads l1 s a s1 -> reads l2 s1 b s2 -> reads (l1 ++ l2) s (a ++ b) s2.
Proof. induction 1; cbn; auto. intros. econstructor; eauto. Qed.
Lemma reads_app_inv l1 l2 s sts s2 : reads (l1 ++ l2) s sts s2 ->
  exists a b s1, sts = a ++ b /\ reads l1 s a s1 /\ reads l2 s1 b s2.
Proof.
  revert s sts. induction l1 as [|x l1 IH]; cbn; intros s sts H.
  - exists nil, sts, s. split; auto. split; [constructor|auto].
  - inversion H as [|? ? ? st s1 sts' ? E H']; subst. destruct (IH _ _ H') as (a & b & s3 & -> & H1 & H2).
    exists (st :: a), b, s3. split; auto. split; auto. econstructor; eauto.
Qed.
Lemma reads_length ls s sts s' : reads ls s sts s' -> length sts = length ls.
Proof. induction 1; cbn; auto. Qed.

Lemma status_of_reads b : forall s st s', status_of b s = Ok (st, s') <-> exists sts, reads (leaves b) s sts s' /\ st = first_open sts.
Proof.
  induction b as [l|c l IH] using builder_rect'; intros s st s'.
  - cbn [Builders.status_of leaves]. split.
    + intros H. exists [st]. split; [econstructor; [exact H|constructor]|]. rewrite first_open_cons. destruct (status_eqb st Done) eqn:E; auto.
      apply status_eqb_eq in E. auto.
    + intros (sts & H & ->). inversion H as [|? ? ? st s1 sts' ? E H']; subst. inversion H'; subst. rewrite E, first_open_cons.
      destruct (status_eqb st Done) eqn:E1; auto. apply status_eqb_eq in E1 as ->. reflexivity.
  - cbn [Builders.status_of leaves].
    assert (X : forall s o s', (exists sts, statuses status_of l s = Ok (sts, s') /\ o = first_open sts) <->
                 exists sts, reads (flat_map leaves l) s sts s' /\ o = first_open sts).
    { clear s st s'. induction l as [|b l IHl]; intros s o s'.
      - cbn. split; intros (sts & H & ->).
        + injection H as <- <-. exists nil. split; [constructor|auto].
        + inversion H; subst. exists nil. auto.
      - inversion IH as [|? ? Hb Hl]; subst. cbn [statuses flat_map]. split; intros (sts & H & ->).
        + unbind H as [x sx] Ex. unbind H as [y sy] Ey. cbn [fst snd] in *. injection H as <- <-.
          apply Hb in Ex. destruct Ex as (sts1 & R1 & ->).
          destruct (proj1 (IHl Hl sx (first_open y) sy)) as (sts2 & R2 & E2); [eauto|].
          exists (sts1 ++ sts2). split; [eapply reads_app; eauto|]. rewrite first_open_cons, first_open_app. now rewrite E2.
        + apply reads_app_inv in H. destruct H as (a & b' & s1 & -> & R1 & R2).
          rewrite (proj2 (Hb s (first_open a) s1)) by eauto. cbn [bind fst snd].
          destruct (proj2 (IHl Hl s1 (first_open b') s')) as (sts & E & E'); [eauto|]. fold (statuses status_of). rewrite E. cbn [bind fst snd].
          exists (first_open a :: sts). split; auto. rewrite first_open_cons, first_open_app. now rewrite E'. }
    split.
    + intros H. unbind H as [sts s1] E. cbn [fst snd] in H. injection H as <- <-. apply X. eauto.
    + intros H. apply X in H. destruct H as (sts & E & ->). fold status_of. rewrite E. reflexivity.
Qed.

(** The trace *)
Lemma happen_trace s e : trace (happen s e) = trace s.
Proof. destruct e; cbn; auto. destruct (lookup id (futures s)) as [[]|]; auto. Qed.
Lemma tick_trace s : trace (tick s) = trace s.
Proof.
  unfold tick. destruct (sched s) as [|es r]; auto.
  assert (X : forall es s0, trace (fold_left happen es s0) = trace s0).
  { clear. induction es as [|e es IH]; intros s0; cbn; auto. rewrite IH. apply happen_trace. }
  rewrite X. reflexivity.
Qed.
Lemma decide_trace ps a o r s x s' : decide ps a o r s = Ok (x, s') ->
  trace s' = trace s /\ futures s' = futures s /\ checked s' = checked s /\ sched s' = sched s.
Proof. unfold Builders.decide. intros H. unbind H as [y w] E. injection H as <- <-. cbn. auto. Qed.
Lemma missing_trace l s x s' : missing_parameters l s = (x, s') -> trace s' = trace s.
Proof.
  unfold missing_parameters. destruct (mem (lid l) (checked s)); [intros H; injection H as <- <-; auto|].
  destruct (params l) as [|p ps]; [intros H; injection H as <- <-; auto|]. destruct (forallb _ _); intros H; injection H as <- <-; auto.
Qed.
Lemma status_base_trace l s st s' : status_base l s = Ok (st, s') -> trace s' = trace s.
Proof.
  unfold Builders.status_base. destruct (missing_parameters l s) as [m s1] eqn:M. apply missing_trace in M. destruct m.
  - intros H. injection H as <- <-. auto.
  - intros H. unbind H as [x s2] E. cbn [fst snd] in H. apply decide_trace in E. destruct E as (E & _). destruct x; cbn [negb] in H.
    2:{ injection H as <- <-. congruence. }
    destruct (lookup (lid l) (futures s2)) as [[| |e|[|n]]|]; try (injection H as <- <-; congruence); try discriminate.
    destruct (has (out l) (files (wd s2))); [|injection H as <- <-; congruence].
    unbind H as [x s3] E3. cbn [fst snd] in H. apply decide_trace in E3. destruct E3 as (E3 & _). injection H as <- <-. congruence.
Qed.
Lemma status_copy_trace l s st s' : status_copy l s = Ok (st, s') -> trace s' = trace s.
Proof.
  unfold Builders.status_copy. intros H. unbind H as [x s2] E. cbn [fst snd] in H. apply decide_trace in E. destruct E as (E & _).
  destruct (negb x || _); [injection H as <- <-; congruence|]. destruct (forallb _ _); injection H as <- <-; congruence.
Qed.
Lemma status_leaf_trace l s st s' : status_leaf l s = Ok (st, s') -> trace s' = trace s ++ [Seen (lid l) st].
Proof.
  unfold Builders.status_leaf. intros H. unbind H as [x s2] E. cbn [fst snd] in H.
  assert (T : trace s2 = trace s).
  { rewrite <- (tick_trace s). destruct (lkind l); [eapply status_base_trace|eapply status_copy_trace|eapply status_base_trace]; eauto. }
  injection H as <- <-. cbn. now rewrite T.
Qed.
Definition seens (ls : list leaf) (sts : list status) : list entry := map (fun p => Seen (lid (fst p)) (snd p)) (combine ls sts).
Lemma reads_trace ls s sts s' : reads ls s sts s' -> trace s' = trace s ++ seens ls sts.
Proof.
  induction 1 as [|l ls s st s1 sts s2 E H IH]; cbn; [now rewrite app_nil_r|]. apply status_leaf_trace in E. rewrite IH, E, <- app_assoc. reflexivity.
Qed.
Lemma seens_about ls sts : length sts = length ls -> map about (seens ls sts) = map lid ls.
Proof. revert sts. induction ls as [|l ls IH]; intros [|st sts] H; try discriminate; auto. cbn. f_equal. apply IH. now injection H. Qed.
Lemma seens_no_start ls sts : no_start (seens ls sts).
Proof. intros id H. unfold seens in H. apply in_map_iff in H. destruct H as (p & E & _). discriminate. Qed.
Lemma seens_done ls sts id : length sts = length ls -> Forall (eq Done) sts -> In id (map lid ls) -> last_seen id (seens ls sts) = Some Done.
Proof.
  revert sts. induction ls as [|l ls IH]; intros [|st sts] L F H; try discriminate; [contradiction|]. cbn in H.
  inversion F; subst. cbn [seens combine map last_seen fst snd]. fold (seens ls sts).
  destruct (in_dec Nat.eq_dec id (map lid ls)) as [I|I].
  - rewrite (IH sts); auto.
  - destruct H as [H|H]; [|contradiction]. rewrite last_seen_none; [now rewrite H, Nat.eqb_refl|].
    rewrite seens_about; auto.
Qed.
Lemma status_of_trace b s st s' : status_of b s = Ok (st, s') ->
  exists t, trace s' = trace s ++ t /\ map about t = ids b /\ no_start t /\
    (st = Done -> forall id, In id (ids b) -> last_seen id t = Some Done).
Proof.
  intros H. apply status_of_reads in H. destruct H as (sts & R & ->). pose proof (reads_length _ _ _ _ R) as L.
  exists (seens (leaves b) sts). split; [apply reads_trace; auto|]. split; [apply seens_about; auto|]. split; [apply seens_no_start|].
  intros E id Hi. apply first_open_done in E. apply seens_done; auto.
Qed.
Lemma needed_of_trace r b : forall s x s', needed_of r b s = Ok (x, s') -> trace s' = trace s.
Proof.
  induction b as [l|c l IH] using builder_rect'; intros s x s' H; cbn [Builders.needed_of] in H.
  - now apply decide_trace in H.
  - destruct (parallel c); [|now apply decide_trace in H].
    revert s H. induction l as [|b l IHl]; intros s H; [injection H as <- <-; auto|].
    inversion IH as [|? ? Hb Hl]; subst. unbind H as [y s1] E. cbn [fst snd] in H. apply Hb in E. destruct y.
    + injection H as <- <-. auto.
    + rewrite <- E. eapply IHl; eauto.
Qed.

(** What a build does to a builder, with the entries [t] *)
Record builds (t : list entry) (b b' : builder) : Prop := {
  b_about : forall id, In id (map about t) -> In id (ids b);
  b_incl : forall id, In id (ids b') -> In id (ids b);
  b_nodup : NoDup (ids b');
  b_gone : forall id, In id (ids b) -> ~ In id (ids b') -> last_seen id t = Some Done;
  b_before : forall x y, before b x y -> In x (ids b') -> In y (ids b') -> before b' x y;
  b_order : forall t1 id t2 x, t = t1 ++ Started id :: t2 -> before b x id -> last_seen x t1 = Some Done }.

Lemma app_split (a b t1 t2 : list entry) e : a ++ b = t1 ++ e :: t2 ->
  (exists u, a = t1 ++ e :: u /\ t2 = u ++ b) \/ (exists u, t1 = a ++ u /\ b = u ++ e :: t2).
Proof.
  revert t1. induction a as [|x a IH]; intros t1 H; cbn in H.
  - right. exists t1. auto.
  - destruct t1 as [|y t1]; cbn in H; injection H as -> H.
    + left. exists a. auto.
    + destruct (IH _ H) as [(u & -> & ->)|(u & -> & ->)]; [left|right]; exists u; auto.
Qed.

Lemma builds_refl t b : NoDup (ids b) -> no_start t -> (forall id, In id (map about t) -> In id (ids b)) -> builds t b b.
Proof.
  intros N S A. constructor; auto; [intros; contradiction|].
  intros t1 id t2 x -> _. exfalso. apply (S id). apply in_or_app. right. now left.
Qed.
Lemma builds_trans t1 t2 b b1 b2 : builds t1 b b1 -> builds t2 b1 b2 -> builds (t1 ++ t2) b b2.
Proof.
  intros H1 H2. constructor.
  - intros id H. rewrite map_app in H. apply in_app_or in H as [H|H]; [eapply b_about; eauto|].
    eapply b_incl; eauto. eapply b_about; eauto.
  - intros id H. eapply b_incl; eauto. eapply b_incl; eauto.
  - eapply b_nodup; eauto.
  - intros id Hi Hn. destruct (in_dec Nat.eq_dec id (ids b1)) as [I|I].
    + apply last_seen_right. eapply b_gone; eauto.
    + apply last_seen_left; [intros C; apply I; eapply b_about; eauto|eapply b_gone; eauto].
  - intros x y Hb Hx Hy. eapply b_before; eauto. eapply b_before; eauto; eapply b_incl; eauto.
  - intros u id v x E Hb. apply app_split in E. destruct E as [(w & E & _)|(w & -> & E)].
    + exact (b_order _ _ _ H1 _ _ _ _ E Hb).
    + destruct (in_dec Nat.eq_dec x (ids b1)) as [I|I].
      * apply last_seen_right. refine (b_order _ _ _ H2 _ _ _ _ E _). refine (b_before _ _ _ H1 _ _ Hb I _).
        eapply (b_about _ _ _ H2). rewrite E, map_app. apply in_or_app. right. now left.
      * apply last_seen_left.
        -- intros C. apply I. eapply (b_about _ _ _ H2). rewrite E, map_app. apply in_or_app. now left.
        -- eapply b_gone; eauto. apply (before_ids _ _ _ Hb).
Qed.
Lemma nodup_app_inv (l1 l2 : list nat) : NoDup (l1 ++ l2) -> NoDup l1 /\ NoDup l2 /\ forall x, In x l1 -> ~ In x l2.
Proof.
  induction l1 as [|x l1 IH]; cbn; intros H; [repeat split; auto; constructor|].
  inversion H as [|? ? Hx Hr]; subst. destruct (IH Hr) as (N1 & N2 & D). rewrite in_app_iff in Hx.
  split; [constructor; tauto|]. split; auto. intros y [->|Hy]; [tauto|auto].
Qed.
Lemma nodup_app (l1 l2 : list nat) : NoDup l1 -> NoDup l2 -> (forall x, In x l1 -> ~ In x l2) -> NoDup (l1 ++ l2).
Proof.
  induction 1 as [|x l1 Hx H IH]; cbn; auto. intros N D. constructor; [rewrite in_app_iff; intros [I|I]; [auto|apply (D x); auto]|].
  apply IH; auto.
Qed.
Lemma ids_cons c b l : ids (Comp c (b :: l)) = ids b ++ idsl l.
Proof. rewrite ids_comp. reflexivity. Qed.

(** A list of builders: the first, then the others.  In a sequential builder the
    others are started only when the first is done. *)
Lemma builds_cons c t1 t2 b l b' l' : NoDup (ids (Comp c (b :: l))) ->
  builds t1 b b' -> builds t2 (Comp c l) (Comp c l') ->
  (no_start t2 \/ parallel c = true \/ forall x, In x (ids b) -> last_seen x t1 = Some Done) ->
  builds (t1 ++ t2) (Comp c (b :: l)) (Comp c (b' :: l')).
Proof.
  intros N H1 H2 S. rewrite ids_cons in N. apply nodup_app_inv in N. destruct N as (Nb & Nl & D).
  constructor; rewrite ?ids_cons.
  - intros id H. rewrite map_app in H. apply in_or_app. apply in_app_or in H as [H|H]; [left; eapply b_about; eauto|right].
    rewrite <- (ids_comp c). eapply b_about; eauto.
  - intros id H. apply in_or_app. apply in_app_or in H as [H|H]; [left; eapply b_incl; eauto|right].
    rewrite <- (ids_comp c) in *. eapply b_incl; eauto.
  - apply nodup_app; [eapply b_nodup; eauto|rewrite <- (ids_comp c); eapply b_nodup; eauto|].
    intros x Hx Hx'. apply (D x); [eapply b_incl; eauto|rewrite <- (ids_comp c) in *; eapply b_incl; eauto].
  - intros id Hi Hn. rewrite in_app_iff in Hn. apply in_app_or in Hi as [Hi|Hi].
    + apply last_seen_left; [|eapply b_gone; eauto]. intros C. apply (D id); auto. rewrite <- (ids_comp c). eapply b_about; eauto.
    + apply last_seen_right. rewrite <- (ids_comp c) in *. eapply b_gone; eauto.
  - intros x y Hb Hx Hy. apply before_cons in Hb. apply before_cons. apply in_app_or in Hx. apply in_app_or in Hy.
    assert (X : forall z, In z (idsl l') -> In z (idsl l)). { intros z. rewrite <- !(ids_comp c). eapply b_incl; eauto. }
    assert (Y : forall z, In z (ids b') -> In z (ids b)) by (eapply b_incl; eauto).
    destruct Hb as [(Hp & Bx & By)|[Hb|Hb]].
    + left. split; auto. split; [destruct Hx as [Hx|Hx]; auto; exfalso; apply (D x); auto|].
      destruct Hy as [Hy|Hy]; auto. exfalso. apply (D y); auto.
    + right. left. pose proof (before_ids _ _ _ Hb) as [Bx By]. eapply b_before; eauto.
      * destruct Hx as [Hx|Hx]; auto. exfalso. apply (D x); auto.
      * destruct Hy as [Hy|Hy]; auto. exfalso. apply (D y); auto.
    + right. right. pose proof (before_ids _ _ _ Hb) as [Bx By]. rewrite ids_comp in Bx, By. eapply b_before; eauto; rewrite ids_comp.
      * destruct Hx as [Hx|Hx]; auto. exfalso. apply (D x); auto.
      * destruct Hy as [Hy|Hy]; auto. exfalso. apply (D y); auto.
  - intros u id v x E Hb. apply app_split in E. apply before_cons in Hb. destruct E as [(w & E & _)|(w & -> & E)].
    + assert (Hi : In id (ids b)). { eapply (b_about _ _ _ H1). rewrite E, map_app. apply in_or_app. right. now left. }
      destruct Hb as [(Hp & Bx & By)|[Hb|Hb]].
      * exfalso. apply (D id); auto.
      * exact (b_order _ _ _ H1 _ _ _ _ E Hb).
      * apply before_ids in Hb. rewrite ids_comp in Hb. exfalso. apply (D id); tauto.
    + assert (Hi : In id (idsl l)). { rewrite <- (ids_comp c). eapply (b_about _ _ _ H2). rewrite E, map_app. apply in_or_app. right. now left. }
      destruct Hb as [(Hp & Bx & By)|[Hb|Hb]].
      * destruct S as [S|[S|S]]; [|congruence|].
        -- exfalso. apply (S id). rewrite E. apply in_or_app. right. now left.
        -- apply last_seen_left; [|auto]. intros C. apply (D x); auto. rewrite <- (ids_comp c). eapply (b_about _ _ _ H2).
           rewrite E, map_app. apply in_or_app. now left.
      * apply before_ids in Hb. exfalso. apply (D id); tauto.
      * apply last_seen_right. exact (b_order _ _ _ H2 _ _ _ _ E Hb).
Qed.

(** Removal of builders that are done *)
Lemma builds_drop c t1 t2 b l l' : NoDup (ids (Comp c (b :: l))) -> no_start t1 -> no_start t2 -> (forall id, In id (map about t1) -> In id (ids b)) ->
  (forall x, In x (ids b) -> last_seen x t1 = Some Done) -> builds t2 (Comp c l) (Comp c l') ->
  builds (t1 ++ t2) (Comp c (b :: l)) (Comp c l').
Proof.
  intros N S1 S2 A1 G H2. rewrite ids_cons in N. apply nodup_app_inv in N. destruct N as (Nb & Nl & D).
  constructor; rewrite ?ids_cons.
  - intros id H. rewrite map_app in H. apply in_or_app. apply in_app_or in H as [H|H]; [auto|right].
    rewrite <- (ids_comp c). eapply b_about; eauto.
  - intros id H. apply in_or_app. right. rewrite <- (ids_comp c). eapply b_incl; eauto.
  - eapply b_nodup; eauto.
  - intros id Hi Hn. apply in_app_or in Hi as [Hi|Hi].
    + apply last_seen_left; auto. intros C. apply (D id); auto. rewrite <- (ids_comp c). eapply b_about; eauto.
    + apply last_seen_right. rewrite <- (ids_comp c) in *. eapply b_gone; eauto.
  - intros x y Hb Hx Hy. apply before_cons in Hb.
    assert (X : forall z, In z (ids (Comp c l')) -> In z (idsl l)). { intros z. rewrite <- (ids_comp c). eapply b_incl; eauto. }
    destruct Hb as [(Hp & Bx & By)|[Hb|Hb]].
    + exfalso. apply (D x); auto.
    + apply before_ids in Hb. exfalso. apply (D x); [tauto|auto].
    + eapply b_before; eauto.
  - intros u id v x E _. exfalso. apply (no_start_app _ _ S1 S2 id). rewrite E. apply in_or_app. right. now left.
Qed.

Lemma clear_builds c l : forall s l' s', NoDup (ids (Comp c l)) -> clear_subs l s = Ok (l', s') ->
  exists t, trace s' = trace s ++ t /\ no_start t /\ builds t (Comp c l) (Comp c l').
Proof.
  induction l as [|b l IH]; intros s l' s' N H; cbn [Builders.clear_subs] in H.
  - injection H as <- <-. exists nil. split; [now rewrite app_nil_r|]. split; [intros id []|]. apply builds_refl; auto; intros id [].
  - unbind H as [st s1] E1. unbind H as [l1 s2] E2. cbn [fst snd] in *. injection H as <- <-.
    apply status_of_trace in E1. destruct E1 as (t1 & T1 & A1 & S1 & G1).
    pose proof N as N'. rewrite ids_cons in N'. apply nodup_app_inv in N'. destruct N' as (Nb & Nl & D).
    rewrite <- (ids_comp c) in Nl. destruct (IH _ _ _ Nl E2) as (t2 & T2 & S2 & B2).
    exists (t1 ++ t2). split; [now rewrite T2, T1, app_assoc|]. split; [now apply no_start_app|].
    destruct (status_eqb st Done) eqn:E.
    + apply status_eqb_eq in E. apply builds_drop; auto. intros id. now rewrite A1.
    + apply builds_cons; auto. apply builds_refl; auto. intros id. now rewrite A1.
Qed.

Lemma finish_builds c l s st b' s' : NoDup (ids (Comp c l)) -> finish c l s = Ok (st, b', s') ->
  exists t l', b' = Comp c l' /\ trace s' = trace s ++ t /\ no_start t /\ builds t (Comp c l) (Comp c l') /\
    (st = Done -> forall id, In id (ids (Comp c l)) -> exists t1 t2, t = t1 ++ t2 /\ last_seen id t1 = Some Done).
Proof.
  intros N H. unfold Builders.finish in H. unbind H as [st2 s2] E2. unbind H as [x s3] E3. unbind H as [l4 s4] E4. cbn [fst snd] in *.
  injection H as <- <- <-. apply status_of_trace in E2. destruct E2 as (t2 & T2 & A2 & S2 & G2).
  assert (T3 : trace s3 = trace s2). { destruct (status_eqb st2 Done); [eapply needed_of_trace; eauto|injection E3 as <- <-; auto]. }
  assert (B2 : builds t2 (Comp c l) (Comp c l)) by (apply builds_refl; auto; intros id; now rewrite A2).
  assert (X : exists t4, trace s4 = trace s3 ++ t4 /\ no_start t4 /\ builds t4 (Comp c l) (Comp c l4)).
  { destruct (clear_done c).
    - eapply clear_builds; eauto.
    - injection E4 as <- <-. exists nil. split; [now rewrite app_nil_r|]. split; [intros id []|]. apply builds_refl; auto; intros id []. }
  destruct X as (t4 & T4 & S4 & B4). exists (t2 ++ t4), l4. split; auto. split; [now rewrite T4, T3, T2, app_assoc|].
  split; [now apply no_start_app|]. split; [eapply builds_trans; eauto|].
  intros E id Hi. exists t2, t4. split; auto.
Qed.

Lemma run_once_builds c (l : list builder) : NoDup (ids (Comp c l)) ->
  Forall (fun b => NoDup (ids b) -> forall s st b' s', build b s = Ok (st, b', s') -> exists t, trace s' = trace s ++ t /\ builds t b b') l ->
  forall s l' s', run_once build (parallel c) l s = Ok (l', s') ->
  exists t, trace s' = trace s ++ t /\ builds t (Comp c l) (Comp c l').
Proof.
  intros N F. induction l as [|b l IH]; intros s l' s' H; cbn [Builders.run_once] in H.
  - injection H as <- <-. exists nil. split; [now rewrite app_nil_r|]. apply builds_refl; auto; intros id [].
  - inversion F as [|? ? Fb Fl]; subst.
    pose proof N as N'. rewrite ids_cons in N'. apply nodup_app_inv in N'. destruct N' as (Nb & Nl & D).
    rewrite <- (ids_comp c) in Nl. specialize (IH Nl Fl).
    unbind H as [st s1] E1. cbn [fst snd] in H. apply status_of_trace in E1. destruct E1 as (t1 & T1 & A1 & S1 & G1).
    assert (B1 : builds t1 b b) by (apply builds_refl; auto; intros id; now rewrite A1).
    assert (Bn : builds nil (Comp c l) (Comp c l)) by (apply builds_refl; auto; intros id []).
    assert (stop : forall s0 t0 b0, trace s0 = trace s ++ t0 -> builds t0 b b0 ->
               exists t, trace s0 = trace s ++ t /\ builds t (Comp c (b :: l)) (Comp c (b0 :: l))).
    { intros s0 t0 b0 T0 B0. exists (t0 ++ nil). split; [now rewrite app_nil_r|]. apply builds_cons; auto. left. intros id []. }
    assert (goon : forall s0 t0 b0 y s9, trace s0 = trace s ++ t0 -> builds t0 b b0 ->
               (parallel c = true \/ forall x, In x (ids b) -> last_seen x t0 = Some Done) ->
               run_once build (parallel c) l s0 = Ok (y, s9) ->
               exists t, trace s9 = trace s ++ t /\ builds t (Comp c (b :: l)) (Comp c (b0 :: y))).
    { intros s0 t0 b0 y s9 T0 B0 O H0. destruct (IH _ _ _ H0) as (t2 & T2 & B2). exists (t0 ++ t2).
      split; [now rewrite T2, T0, app_assoc|]. apply builds_cons; auto. }
    fold (run_once build (parallel c)) in H.
    destruct st.
    + unbind H as [y s2] E2. cbn [fst snd] in H. injection H as <- <-. eapply goon; eauto.
    + unbind H as [[st2 b2] s2] E2. cbn [fst snd] in H. destruct (Fb Nb _ _ _ _ E2) as (t2 & T2 & B2).
      assert (B3 : builds (t1 ++ t2) b b2) by (eapply builds_trans; eauto).
      assert (T3 : trace s2 = trace s ++ (t1 ++ t2)) by now rewrite T2, T1, app_assoc.
      destruct (parallel c) eqn:Ep.
      * unbind H as [y s3] E3. cbn [fst snd] in H. injection H as <- <-. eapply goon; eauto.
      * injection H as <- <-. eapply stop; eauto.
    + destruct (parallel c) eqn:Ep.
      * unbind H as [y s3] E3. cbn [fst snd] in H. injection H as <- <-. eapply goon; eauto.
      * injection H as <- <-. eapply stop; eauto.
    + injection H as <- <-. eapply stop; eauto.
    + injection H as <- <-. eapply stop; eauto.
    + injection H as <- <-. eapply stop; eauto.
    + injection H as <- <-. eapply stop; eauto.
Qed.

Lemma build_leaf_trace l s st s' : build_leaf l s = Ok (st, s') ->
  exists t, trace s' = trace s ++ t /\ forall id, In id (map about t) -> id = lid l.
Proof.
  unfold Builders.build_leaf. intros H.
  assert (W : forall s1 t1, trace s1 = trace s ++ t1 -> (forall id, In id (map about t1) -> id = lid l) -> status_leaf l s1 = Ok (st, s') ->
    exists t, trace s' = trace s ++ t /\ forall id, In id (map about t) -> id = lid l).
  { intros s1 t1 T1 A1 E. apply status_leaf_trace in E. exists (t1 ++ [Seen (lid l) st]). split; [now rewrite E, T1, app_assoc|].
    intros id Hi. rewrite map_app in Hi. apply in_app_or in Hi as [Hi|Hi]; auto. cbn in Hi. destruct Hi as [<-|[]]; auto. }
  destruct (lkind l).
  - unbind H as [st1 s1] E. cbn [fst snd] in H. apply status_leaf_trace in E.
    destruct (going st1); [unfold run_cmd in H; destruct (lookup (lid l) (futures s1))|].
    + eapply W; [exact E| |exact H]. intros id [<-|[]]; auto.
    + eapply (W _ ([Seen (lid l) st1] ++ [Started (lid l)])); [|  |exact H].
      * cbn [trace note set_future]. now rewrite E, app_assoc.
      * intros id [<-|[<-|[]]]; auto.
    + eapply W; [exact E| |exact H]. intros id [<-|[]]; auto.
  - unbind H as [st1 s1] E. cbn [fst snd] in H. apply status_leaf_trace in E.
    assert (Q : status_leaf l s1 = Ok (st, s') -> exists t, trace s' = trace s ++ t /\ forall id, In id (map about t) -> id = lid l).
    { intros H'. eapply W; [exact E| |exact H']. intros id [<-|[]]; auto. }
    destruct st1; auto. destruct (params l) as [|[p| |] ps] eqn:Ep; try discriminate.
    destruct (lookup p (files (wd s1))) as [c|]; try discriminate. rewrite <- Ep in H.
    unbind H as [x s2] E2. apply decide_trace in E2. destruct E2 as (T2 & _). cbn [snd] in H.
    eapply (W _ ([Seen (lid l) Ready] ++ [Started (lid l)])); [| |exact H].
    + rewrite T2. cbn. now rewrite E, <- app_assoc.
    + intros id [<-|[<-|[]]]; auto.
  - destruct (filter _ (params l)) as [|[| |t] ps]; try discriminate.
    unbind H as [x s2] E2. apply decide_trace in E2. destruct E2 as (T2 & _). cbn [snd] in H.
    eapply (W _ [Started (lid l)]); [| |exact H].
    + rewrite T2. reflexivity.
    + intros id [<-|[]]; auto.
Qed.

Lemma build_builds b : NoDup (ids b) -> forall s st b' s', build b s = Ok (st, b', s') ->
  exists t, trace s' = trace s ++ t /\ builds t b b'.
Proof.
  induction b as [l|c l IH] using builder_rect'; intros N s st b' s' H; cbn [Builders.build] in H.
  - unbind H as [st1 s1] E. cbn [fst snd] in H. injection H as <- <- <-. apply build_leaf_trace in E. destruct E as (t & T & A).
    exists t. split; auto. constructor; auto.
    + intros id Hi. rewrite (A id Hi). now left.
    + intros; contradiction.
    + intros t1 id t2 x _ Hb. now apply before_leaf in Hb.
  - fold build in H. unbind H as [st1 s1] E1. unbind H as [l2 s2] E2. cbn [fst snd] in *.
    apply status_of_trace in E1. destruct E1 as (t1 & T1 & A1 & S1 & _).
    assert (B1 : builds t1 (Comp c l) (Comp c l)) by (apply builds_refl; auto; intros id; now rewrite A1).
    assert (X : exists t2, trace s2 = trace s1 ++ t2 /\ builds t2 (Comp c l) (Comp c l2)).
    { destruct (going st1).
      - eapply run_once_builds; eauto.
      - injection E2 as <- <-. exists nil. split; [now rewrite app_nil_r|]. apply builds_refl; auto; intros id []. }
    destruct X as (t2 & T2 & B2). apply finish_builds in H; [|eapply b_nodup; eauto].
    destruct H as (t3 & l' & -> & T3 & S3 & B3 & _).
    exists ((t1 ++ t2) ++ t3). split; [now rewrite T3, T2, T1, !app_assoc|]. eapply builds_trans; [eapply builds_trans|]; eauto.
Qed.

Lemma build_complete_builds n c : forall l s st b' s', NoDup (ids (Comp c l)) -> build_complete n c l s = Ok (st, b', s') ->
  exists t, trace s' = trace s ++ t /\ builds t (Comp c l) b'.
Proof.
  induction n as [|n IH]; intros l s st b' s' N H; cbn [Builders.build_complete] in H.
  - injection H as <- <- <-. exists nil. split; [now rewrite app_nil_r|]. apply builds_refl; auto; intros id [].
  - unbind H as [st1 s1] E1. cbn [fst snd] in *. apply status_of_trace in E1. destruct E1 as (t1 & T1 & A1 & S1 & _).
    assert (B1 : builds t1 (Comp c l) (Comp c l)) by (apply builds_refl; auto; intros id; now rewrite A1).
    destruct (going st1).
    + unbind H as [l2 s2] E2. cbn [fst snd] in H. apply run_once_builds in E2; auto.
      2:{ rewrite Forall_forall. intros b _ Nb. now apply build_builds. }
      destruct E2 as (t2 & T2 & B2). apply IH in H; [|eapply b_nodup; eauto]. destruct H as (t3 & T3 & B3).
      exists ((t1 ++ t2) ++ t3). split; [now rewrite T3, T2, T1, !app_assoc|]. eapply builds_trans; [eapply builds_trans|]; eauto.
    + unbind H as [[st2 b2] s2] E2. cbn [fst snd] in H. injection H as <- <- <-. apply finish_builds in E2; auto.
      destruct E2 as (t3 & l' & -> & T3 & S3 & B3 & _). exists (t1 ++ t3). split; [now rewrite T3, T1, app_assoc|]. eapply builds_trans; eauto.
Qed.

Lemma polled_builds b s b' s' : polled digest hexdigest encode bytes_str b s b' s' -> NoDup (ids b) ->
  exists t, trace s' = trace s ++ t /\ builds t b b'.
Proof.
  intros H N. induction H as [b s|b s b1 s1 st s2 H IH E|b s b1 s1 st b2 s2 H IH E|b s c subs s1 n st b2 s2 H IH E].
  - exists nil. split; [now rewrite app_nil_r|]. apply builds_refl; auto; intros id [].
  - destruct (IH N) as (t1 & T1 & B1). apply status_of_trace in E. destruct E as (t2 & T2 & A2 & S2 & _).
    exists (t1 ++ t2). split; [now rewrite T2, T1, app_assoc|]. eapply builds_trans; eauto. apply builds_refl; auto; [eapply b_nodup; eauto|].
    intros id. now rewrite A2.
  - destruct (IH N) as (t1 & T1 & B1). apply build_builds in E; [|eapply b_nodup; eauto]. destruct E as (t2 & T2 & B2).
    exists (t1 ++ t2). split; [now rewrite T2, T1, app_assoc|]. eapply builds_trans; eauto.
  - destruct (IH N) as (t1 & T1 & B1). apply build_complete_builds in E; [|eapply b_nodup; eauto]. destruct E as (t2 & T2 & B2).
    exists (t1 ++ t2). split; [now rewrite T2, T1, app_assoc|]. eapply builds_trans; eauto.
Qed.

(** In a quiet state the status of a builder is a function of a few things *)
Notation bneeded := (Decider.build_needed digest hexdigest encode bytes_str).
Definition miss (l : leaf) (s : sys) : bool := fst (missing_parameters l s).
Definition pure_base (l : leaf) (m : bool) (w : world) (f : option future) : result (status * world) :=
  if m then Ok (MissingParameters, w) else
  do r <- bneeded w (inputs_of (params l) (action l)) (out l) false ;
  if negb (fst r) then Ok (Done, snd r) else
  match f with
  | None => Ok (Ready, snd r)
  | Some Running => Ok (Building, snd r)
  | Some WasCancelled => Ok (Cancelled, snd r)
  | Some (Failed e) => Raise e
  | Some (Exit O) =>
      if has (out l) (files (snd r)) then
        do r <- bneeded (snd r) (inputs_of (params l) (action l)) (out l) true ; Ok (Done, snd r)
      else Ok (MissingOutfile, snd r)
  | Some (Exit (S _)) => Raise BuildError
  end.
Definition pure_copy (l : leaf) (w : world) : result (status * world) :=
  do r <- bneeded w (inputs_of (params l) (action l)) (out l) false ;
  if negb (fst r) || eqb (first_path (params l)) (Some (out l)) then Ok (Done, snd r)
  else if forallb (exists_in (snd r)) (params l) then Ok (Ready, snd r) else Ok (MissingParameters, snd r).
Definition pure (l : leaf) (m : bool) (w : world) (f : option future) : result (status * world) :=
  match lkind l with Copy => pure_copy l w | _ => pure_base l m w f end.
Definition after (l : leaf) (s : sys) : sys := match lkind l with Copy => s | _ => snd (missing_parameters l s) end.

Lemma after_same l s : wd (after l s) = wd s /\ futures (after l s) = futures s /\ sched (after l s) = sched s /\ trace (after l s) = trace s.
Proof.
  unfold after, missing_parameters. destruct (lkind l); auto; destruct (mem (lid l) (checked s)); cbn; auto;
    destruct (params l); cbn; auto; destruct (exists_in (wd s) i && forallb (exists_in (wd s)) l0); cbn; auto.
Qed.
Lemma set_wd_wd s : set_wd (wd s) s = s.
Proof. now destruct s. Qed.
Lemma status_leaf_pure l s : sched s = nil -> status_leaf l s =
  do r <- pure l (miss l s) (wd s) (lookup (lid l) (futures s)) ; Ok (fst r, note (Seen (lid l) (fst r)) (set_wd (snd r) (after l s))).
Proof.
  intros Q. unfold Builders.status_leaf, tick. rewrite Q. destruct (after_same l s) as (A1 & A2 & A3 & A4). unfold pure, after in *.
  assert (Base : status_base l s = do r <- pure_base l (miss l s) (wd s) (lookup (lid l) (futures s)) ; Ok (fst r, set_wd (snd r) (snd (missing_parameters l s)))).
  { unfold Builders.status_base, pure_base, miss.
    assert (W : wd (snd (missing_parameters l s)) = wd s /\ futures (snd (missing_parameters l s)) = futures s).
    { unfold missing_parameters. destruct (mem (lid l) (checked s)); cbn; auto; destruct (params l); cbn; auto; destruct (_ && _); auto. }
    destruct (missing_parameters l s) as [m s1]. cbn [fst snd] in *. destruct W as [W1 W2]. destruct m.
    - cbn. rewrite <- W1, set_wd_wd. reflexivity.
    - unfold Builders.decide at 1. rewrite W1. destruct (bneeded (wd s) _ (out l) false) as [[x w]|]; [|reflexivity]. cbn [bind fst snd].
      destruct x; cbn [negb]; [|reflexivity]. cbn [futures set_wd wd]. rewrite W2.
      destruct (lookup (lid l) (futures s)) as [[| |e|[|n]]|]; auto. destruct (has (out l) (files w)); auto.
      unfold Builders.decide. cbn [wd set_wd]. destruct (bneeded w _ (out l) true) as [[y w']|]; reflexivity. }
  destruct (lkind l).
  - rewrite Base. destruct (pure_base _ _ _ _) as [[x w]|]; reflexivity.
  - unfold Builders.status_copy, pure_copy, Builders.decide. destruct (bneeded (wd s) _ (out l) false) as [[x w]|]; [|reflexivity]. cbn [bind fst snd].
    destruct (negb x || _); [reflexivity|]. cbn [wd set_wd]. destruct (forallb _ _); reflexivity.
  - rewrite Base. destruct (pure_base _ _ _ _) as [[x w]|]; reflexivity.
Qed.

(** States with the same answers *)
Definition like (ls : list leaf) (s s' : sys) : Prop :=
  wd s' = wd s /\ futures s' = futures s /\ sched s' = nil /\ forall l, In l ls -> miss l s' = miss l s.
Lemma miss_other l l' s : lid l <> lid l' -> miss l (snd (missing_parameters l' s)) = miss l s.
Proof.
  intros N. unfold miss, missing_parameters at 2. destruct (mem (lid l') (checked s)) eqn:E; auto. destruct (params l') eqn:Ep; auto.
  destruct (forallb _ _); auto. cbn [snd]. unfold missing_parameters. cbn [checked set_checked wd].
  assert (X : mem (lid l) (lid l' :: checked s) = mem (lid l) (checked s)).
  { unfold mem. cbn. destruct (eqb_spec (lid l) (lid l')); [contradiction|reflexivity]. }
  rewrite X. destruct (mem (lid l) (checked s)); auto. destruct (params l); auto. destruct (forallb _ _); auto.
Qed.
Lemma miss_same l s : miss l (snd (missing_parameters l s)) = miss l s.
Proof.
  unfold miss. destruct (missing_parameters l s) as [m s1] eqn:M. cbn [fst snd]. unfold missing_parameters in M.
  destruct (mem (lid l) (checked s)) eqn:E; [injection M as <- <-; unfold missing_parameters; now rewrite E|].
  destruct (params l) as [|p ps] eqn:Ep; [injection M as <- <-; unfold missing_parameters; now rewrite E, Ep|].
  destruct (forallb (exists_in (wd s)) (p :: ps)) eqn:F; injection M as <- <-; unfold missing_parameters.
  - cbn [checked set_checked]. unfold mem. cbn [existsb]. now rewrite eqb_refl.
  - rewrite E, Ep, F. reflexivity.
Qed.
Lemma miss_note l s e : miss l (note e s) = miss l s.
Proof. unfold miss, missing_parameters. cbn [checked note wd]. destruct (mem (lid l) (checked s)); auto. destruct (params l); auto. destruct (forallb _ _); auto. Qed.
Lemma status_like ls l s s' st s1 : NoDup (map lid ls) -> In l ls -> like ls s s' ->
  (forall st s1, status_leaf l s = Ok (st, s1) -> wd s1 = wd s) -> sched s = nil ->
  status_leaf l s = Ok (st, s1) -> exists s2, status_leaf l s' = Ok (st, s2) /\ like ls s s2.
Proof.
  intros N Hl (L1 & L2 & L3 & L4) St Q H. pose proof (St _ _ H) as W. rewrite status_leaf_pure in H by auto. rewrite status_leaf_pure by auto.
  unbind H as [x w] E. cbn [fst snd] in H. injection H as <- <-. rewrite L1, L2, (L4 l Hl), E. cbn [bind fst snd]. cbn in W.
  eexists. split; [reflexivity|]. destruct (after_same l s') as (A1 & A2 & A3 & A4). split; [exact W|]. split; [cbn; congruence|].
  split; [cbn; congruence|]. intros l' Hl'. rewrite miss_note, <- (L4 l' Hl').
  assert (Y : set_wd w (after l s') = after l s'). { rewrite <- (set_wd_wd (after l s')) at 2. f_equal. congruence. }
  rewrite Y. unfold after. destruct (lkind l); auto.
  - destruct (Nat.eq_dec (lid l') (lid l)) as [E'|E']; [|now apply miss_other].
    assert (l' = l) as ->; [|apply miss_same]. clear -N Hl Hl' E'. induction ls as [|a ls IH]; [contradiction|].
    inversion N as [|? ? Na Nr]; subst. destruct Hl as [->|Hl], Hl' as [->|Hl']; auto; exfalso; apply Na; [rewrite <- E'|rewrite E']; now apply in_map.
  - destruct (Nat.eq_dec (lid l') (lid l)) as [E'|E']; [|now apply miss_other].
    assert (l' = l) as ->; [|apply miss_same]. clear -N Hl Hl' E'. induction ls as [|a ls IH]; [contradiction|].
    inversion N as [|? ? Na Nr]; subst. destruct Hl as [->|Hl], Hl' as [->|Hl']; auto; exfalso; apply Na; [rewrite <- E'|rewrite E']; now apply in_map.
Qed.
Lemma status_like_inv ls l s s' st s2 : NoDup (map lid ls) -> In l ls -> like ls s s' ->
  (forall st s1, status_leaf l s = Ok (st, s1) -> wd s1 = wd s) -> sched s = nil ->
  status_leaf l s' = Ok (st, s2) -> exists s1, status_leaf l s = Ok (st, s1) /\ like ls s s2.
Proof.
  intros N Hl L St Q H. pose proof L as (L1 & L2 & L3 & L4).
  assert (X : exists s1, status_leaf l s = Ok (st, s1)).
  { rewrite status_leaf_pure in H by auto. rewrite status_leaf_pure by auto. unbind H as [x w] E. cbn [fst snd] in H. injection H as <- <-.
    rewrite L1, L2, (L4 l Hl) in E. rewrite E. cbn. eauto. }
  destruct X as [s1 X]. exists s1. split; auto. destruct (status_like ls l s s' st s1) as (s3 & H3 & L3'); auto. congruence.
Qed.
Definition answers (s : sys) (l : leaf) (st : status) : Prop := exists s1, status_leaf l s = Ok (st, s1).
Lemma reads_like ls s ls0 : NoDup (map lid ls) -> (forall l, In l ls -> forall st s1, status_leaf l s = Ok (st, s1) -> wd s1 = wd s) ->
  sched s = nil -> (forall l, In l ls0 -> In l ls) ->
  forall s' sts s2, like ls s s' -> reads ls0 s' sts s2 -> Forall2 (answers s) ls0 sts /\ like ls s s2.
Proof.
  intros N St Q I s' sts s2 L H. induction H as [s'|l ls0 s' st s1 sts s2 E H IH]; [split; auto|].
  destruct (status_like_inv ls l s s' st s1) as (s3 & E3 & L3); auto; [apply I; now left|apply St; apply I; now left|].
  destruct IH as [F L']; auto; [intros; apply I; now right|]. split; auto. constructor; auto. exists s3. auto.
Qed.
Lemma answers_fun s l x y : answers s l x -> answers s l y -> x = y.
Proof. intros [s1 H1] [s2 H2]. congruence. Qed.

Lemma status_of_like ls s b s' st s2 : NoDup (map lid ls) -> (forall l, In l ls -> forall st s1, status_leaf l s = Ok (st, s1) -> wd s1 = wd s) ->
  sched s = nil -> (forall l, In l (leaves b) -> In l ls) -> like ls s s' -> status_of b s' = Ok (st, s2) ->
  (exists sts, Forall2 (answers s) (leaves b) sts /\ st = first_open sts) /\ like ls s s2.
Proof.
  intros N St Q I L H. apply status_of_reads in H. destruct H as (sts & R & ->).
  destruct (reads_like ls s (leaves b) N St Q I _ _ _ L R) as [F L']. split; eauto.
Qed.

Lemma answers_fun2 s ls x y : Forall2 (answers s) ls x -> Forall2 (answers s) ls y -> x = y.
Proof. intros H. revert y. induction H; intros z Hz; inversion Hz; subst; auto. f_equal; eauto using answers_fun. Qed.

Lemma status_ready l s s1 : status_leaf l s = Ok (Ready, s1) -> lkind l <> Copy -> lookup (lid l) (futures s1) = None.
Proof.
  unfold Builders.status_leaf. intros H K. unbind H as [x s2] E. cbn [fst snd] in H. injection H as -> <-. cbn [futures note].
  assert (E' : status_base l (tick s) = Ok (Ready, s2)) by (destruct (lkind l); congruence). clear E.
  unfold Builders.status_base in E'. destruct (missing_parameters l (tick s)) as [m s0]. destruct m; [discriminate|].
  unbind E' as [y s3] E. cbn [fst snd] in E'. destruct y; cbn [negb] in E'; [|discriminate].
  destruct (lookup (lid l) (futures s3)) as [[| |e|[|n]]|] eqn:F; try discriminate.
  - destruct (has (out l) (files (wd s3))); [|discriminate]. unbind E' as [z s4] E4. discriminate.
  - injection E' as <-. exact F.
Qed.

Lemma in_seens (t : list entry) id : In (Started id) t -> starts t.
Proof. now exists id. Qed.
Lemma build_starts ls s b : NoDup (map lid ls) -> (forall l, In l ls -> forall st s1, status_leaf l s = Ok (st, s1) -> wd s1 = wd s) ->
  sched s = nil -> (forall l, In l (leaves b) -> In l ls) -> NoDup (ids b) ->
  forall sts, Forall2 (answers s) (leaves b) sts -> first_open sts = Ready ->
  forall s' st b' s2, like ls s s' -> build b s' = Ok (st, b', s2) ->
  exists t, trace s2 = trace s' ++ t /\ starts t.
Proof.
  intros N St Q. induction b as [l|c subs IH] using builder_rect'; intros I Nb sts F O s' st b' s2 L H.
  - cbn [Builders.build] in H. unbind H as [st1 s1] E. cbn [fst snd] in H. injection H as <- <- <-.
    inversion F as [|? st0 ? ? A F']; subst. inversion F'; subst. cbn in O. rewrite first_open_cons in O.
    assert (st0 = Ready) as -> by (destruct (status_eqb st0 Done) eqn:Es; [discriminate|auto]).
    assert (Hl : In l ls) by (apply I; now left).
    destruct A as [s3 A]. destruct (status_like ls l s s' Ready s3 N Hl L (St _ Hl) Q A) as (s4 & E4 & L4).
    unfold Builders.build_leaf in E. pose proof (status_leaf_trace _ _ _ _ E4) as T4.
    destruct (lkind l) eqn:K.
    + rewrite E4 in E. cbn [bind fst snd going] in E. unfold run_cmd in E.
      rewrite (status_ready l s' s4) in E by (auto; congruence). apply status_leaf_trace in E. cbn [trace note set_future] in E.
      rewrite E, T4, <- !app_assoc. eexists. split; [reflexivity|]. exists (lid l). right. now left.
    + rewrite E4 in E. cbn [bind fst snd] in E. destruct (params l) as [|[p| |] ps] eqn:Ep; try discriminate.
      destruct (lookup p (files (wd s4))) as [ct|]; [|discriminate]. unbind E as [x s5] E5. apply decide_trace in E5. destruct E5 as (T5 & _).
      apply status_leaf_trace in E. cbn [snd] in E. cbn [trace note write set_wd] in T5. rewrite E, T5, T4, <- !app_assoc.
      eexists. split; [reflexivity|]. exists (lid l). right. now left.
    + destruct (filter _ (params l)) as [|[| |tx] ps]; try discriminate. unbind E as [x s5] E5. apply decide_trace in E5. destruct E5 as (T5 & _).
      apply status_leaf_trace in E. cbn [snd] in E. cbn [trace note write set_wd] in T5. rewrite E, T5, <- !app_assoc.
      eexists. split; [reflexivity|]. exists (lid l). now left.
  - cbn [Builders.build] in H. fold build in H. unbind H as [st1 s1] E1. unbind H as [l3 s3] E3. cbn [fst snd] in *.
    destruct (status_of_like ls s _ _ _ _ N St Q I L E1) as ((sts' & F' & ->) & L1).
    assert (sts' = sts) as -> by (eapply answers_fun2; eauto). rewrite O in E3. cbn [going] in E3.
    apply status_of_trace in E1. destruct E1 as (t1 & T1 & A1 & S1 & _).
    assert (X : exists t2, trace s3 = trace s1 ++ t2 /\ starts t2).
    { clear H T1 A1 S1 t1 L F'. cbn [leaves] in F. rewrite ids_comp in Nb. revert sts s1 l3 F O L1 E3. induction subs as [|b subs IHs]; intros sts s1 l3 F O L1 E3.
      - inversion F; subst. discriminate.
      - inversion IH as [|? ? IHb IHr]; subst. cbn [flat_map] in F. apply Forall2_app_inv_l in F. destruct F as (a1 & a2 & F1 & F2 & ->).
        cbn [idsl flat_map] in Nb. apply nodup_app_inv in Nb. destruct Nb as (N1 & N2 & _). cbn [Builders.run_once] in E3. unbind E3 as [x s4] E4. cbn [fst snd] in E3.
        assert (Ib : forall l, In l (leaves b) -> In l ls). { intros l Hl. apply I. cbn. apply in_or_app. now left. }
        destruct (status_of_like ls s _ _ _ _ N St Q Ib L1 E4) as ((sts' & F' & ->) & L4).
        assert (sts' = a1) as -> by (eapply answers_fun2; eauto). rewrite first_open_app in O.
        apply status_of_trace in E4. destruct E4 as (t4 & T4 & A4 & S4 & _). destruct (status_eqb (first_open a1) Done) eqn:D.
        + apply status_eqb_eq in D. rewrite D in E3. unbind E3 as [y s5] E5. cbn [fst snd] in E3. injection E3 as <- <-.
          destruct (IHs IHr) with (sts := a2) (s1 := s4) (l3 := y) as (t5 & T5 & (id & S5)); auto.
          { intros l Hl. apply I. cbn. apply in_or_app. now right. }
          exists (t4 ++ t5). split; [now rewrite T5, T4, app_assoc|]. exists id. apply in_or_app. now right.
        + rewrite O in E3. unbind E3 as [[st6 b6] s6] E6. cbn [fst snd] in E3.
          destruct (IHb Ib N1 a1 F1 O s4 _ _ _ L4 E6) as (t6 & T6 & (id & S6)).
          destruct (parallel c).
          * unbind E3 as [y s7] E7. cbn [fst snd] in E3. injection E3 as <- <-.
            assert (Y : exists t7, trace s7 = trace s6 ++ t7).
            { apply (run_once_builds (Build_comp true false nil nil (of_str nil))) in E7.
              - destruct E7 as (t7 & T7 & _). eauto.
              - rewrite ids_comp. exact N2.
              - rewrite Forall_forall. intros b0 _ Nb0. now apply build_builds. }
            destruct Y as (t7 & T7). exists (t4 ++ t6 ++ t7). split; [now rewrite T7, T6, T4, !app_assoc|].
            exists id. apply in_or_app. right. apply in_or_app. now left.
          * injection E3 as <- <-. exists (t4 ++ t6). split; [now rewrite T6, T4, app_assoc|]. exists id. apply in_or_app. now right. }
    destruct X as (t2 & T2 & (id & S2)).
    assert (Y : exists t3, trace s2 = trace s3 ++ t3).
    { unfold Builders.finish in H. unbind H as [st5 s5] E5. unbind H as [x6 s6] E6. unbind H as [l7 s7] E7. cbn [fst snd] in *. injection H as <- <- <-.
      apply status_of_trace in E5. destruct E5 as (t5 & T5 & _).
      assert (T6 : trace s6 = trace s5). { destruct (status_eqb st5 Done); [eapply needed_of_trace; eauto|injection E6 as <- <-; auto]. }
      assert (Z : exists t7, trace s7 = trace s6 ++ t7).
      { destruct (clear_done c); [|injection E7 as <- <-; exists nil; now rewrite app_nil_r].
        clear -E7. revert s6 l7 E7. induction l3 as [|b l IHl]; intros s6 l7 E7; cbn [Builders.clear_subs] in E7.
        - injection E7 as <- <-. exists nil. now rewrite app_nil_r.
        - unbind E7 as [x sx] Ex. unbind E7 as [y sy] Ey. cbn [fst snd] in *. injection E7 as <- <-. apply status_of_trace in Ex. destruct Ex as (t1 & T1 & _).
          destruct (IHl _ _ Ey) as (t2 & T2). exists (t1 ++ t2). now rewrite T2, T1, app_assoc. }
      destruct Z as (t7 & T7). exists (t5 ++ t7). now rewrite T7, T6, T5, app_assoc. }
    destruct Y as (t3 & T3). exists (t1 ++ t2 ++ t3). split; [now rewrite T3, T2, T1, !app_assoc|].
    exists id. apply in_or_app. right. apply in_or_app. now left.
Qed.

(** How often a command was started, and whether it may still be started *)
Definition count (id : nat) (t : list entry) : nat := length (filter (fun e => match e with Started i => Nat.eqb i id | _ => false end) t).
Definition unstarted (id : nat) (s : sys) : nat := match lookup id (futures s) with None => 1 | Some _ => 0 end.
Definition budget (id : nat) (s : sys) : nat := count id (trace s) + unstarted id s.
Lemma count_app id a b : count id (a ++ b) = count id a + count id b.
Proof. unfold count. now rewrite filter_app, app_length. Qed.
Lemma happen_budget id s e : budget id (happen s e) <= budget id s.
Proof.
  unfold budget. rewrite happen_trace. destruct e as [p c|p|i f]; unfold unstarted; cbn; auto.
  destruct (lookup i (futures s)) as [[]|]; auto. cbn. rewrite lookup_set. destruct (eqb id i), (lookup id (futures s)); lia.
Qed.
Lemma tick_budget id s : budget id (tick s) <= budget id s.
Proof.
  unfold tick. destruct (sched s) as [|es r]; auto.
  assert (X : forall es s0, budget id (fold_left happen es s0) <= budget id s0).
  { clear. induction es as [|e es IH]; intros s0; cbn; auto. etransitivity; [apply IH|apply happen_budget]. }
  etransitivity; [apply X|]. reflexivity.
Qed.
Lemma decide_budget id ps a o r s x s' : decide ps a o r s = Ok (x, s') -> budget id s' = budget id s.
Proof. intros H. apply decide_trace in H. destruct H as (T & F & _). unfold budget, unstarted. now rewrite T, F. Qed.
Lemma missing_budget id l s x s' : missing_parameters l s = (x, s') -> budget id s' = budget id s.
Proof.
  unfold missing_parameters. destruct (mem (lid l) (checked s)); [intros H; injection H as <- <-; auto|].
  destruct (params l) as [|p ps]; [intros H; injection H as <- <-; auto|]. destruct (forallb _ _); intros H; injection H as <- <-; auto.
Qed.
Lemma status_leaf_budget id l s st s' : status_leaf l s = Ok (st, s') -> budget id s' <= budget id s.
Proof.
  unfold Builders.status_leaf. intros H. unbind H as [x s2] E. cbn [fst snd] in H. injection H as <- <-.
  assert (B : budget id s2 <= budget id s).
  { rewrite <- (tick_budget id s). revert E. generalize (tick s). clear s. intros s E.
    assert (Base : status_base l s = Ok (x, s2) -> budget id s2 <= budget id s).
    { clear E. unfold Builders.status_base. destruct (missing_parameters l s) as [m s1] eqn:M. apply (missing_budget id) in M. destruct m.
      - intros H. injection H as <- <-. lia.
      - intros H. unbind H as [y s3] E. cbn [fst snd] in H. apply (decide_budget id) in E. destruct y; cbn [negb] in H.
        2:{ injection H as <- <-. lia. }
        destruct (lookup (lid l) (futures s3)) as [[| |e|[|n]]|]; try (injection H as <- <-; lia); try discriminate.
        destruct (has (out l) (files (wd s3))); [|injection H as <- <-; lia].
        unbind H as [y s4] E4. cbn [fst snd] in H. apply (decide_budget id) in E4. injection H as <- <-. lia. }
    destruct (lkind l); auto. unfold Builders.status_copy in E. unbind E as [y s3] E3. cbn [fst snd] in E. apply (decide_budget id) in E3.
    destruct (negb y || _); [injection E as <- <-; lia|]. destruct (forallb _ _); injection E as <- <-; lia. }
  unfold budget in *. cbn [trace note]. rewrite count_app. cbn. change (unstarted id (note (Seen (lid l) x) s2)) with (unstarted id s2). lia.
Qed.
Lemma reads_budget id ls s sts s' : reads ls s sts s' -> budget id s' <= budget id s.
Proof. induction 1 as [|l ls s st s1 sts s2 E H IH]; auto. apply (status_leaf_budget id) in E. lia. Qed.
Lemma status_of_budget id b s st s' : status_of b s = Ok (st, s') -> budget id s' <= budget id s.
Proof. intros H. apply status_of_reads in H. destruct H as (sts & R & _). eapply reads_budget; eauto. Qed.
Lemma needed_of_budget id r b : forall s x s', needed_of r b s = Ok (x, s') -> budget id s' = budget id s.
Proof.
  induction b as [l|c l IH] using builder_rect'; intros s x s' H; cbn [Builders.needed_of] in H.
  - now apply (decide_budget id) in H.
  - destruct (parallel c); [|now apply (decide_budget id) in H].
    revert s H. induction l as [|b l IHl]; intros s H; [injection H as <- <-; auto|].
    inversion IH as [|? ? Hb Hl]; subst. unbind H as [y s1] E. cbn [fst snd] in H. apply Hb in E. destruct y.
    + injection H as <- <-. auto.
    + rewrite <- E. eapply IHl; eauto.
Qed.
Lemma build_leaf_budget id l s st s' : (lid l = id -> lkind l = Command) -> build_leaf l s = Ok (st, s') -> budget id s' <= budget id s.
Proof.
  unfold Builders.build_leaf. intros K H.
  assert (N : lkind l <> Command -> forall s0 p c, budget id (write p c (note (Started (lid l)) s0)) = budget id s0).
  { intros K' s0 p c. unfold budget. cbn [trace note write set_wd]. rewrite count_app. cbn. destruct (Nat.eqb_spec (lid l) id); [exfalso; apply K'; auto|].
    cbn. unfold unstarted. cbn. lia. }
  destruct (lkind l) eqn:Kl.
  - unbind H as [st1 s1] E. cbn [fst snd] in H. apply (status_leaf_budget id) in E. apply (status_leaf_budget id) in H.
    destruct (going st1); [|lia]. unfold run_cmd in H. destruct (lookup (lid l) (futures s1)) as [f|] eqn:F; [lia|].
    assert (X : budget id (note (Started (lid l)) (set_future (lid l) Running s1)) = budget id s1); [|lia].
    unfold budget. cbn [trace note set_future]. rewrite count_app. cbn. unfold unstarted. cbn. rewrite lookup_set.
    destruct (Nat.eqb_spec (lid l) id) as [Ei|Ei]; destruct (eqb_spec id (lid l)) as [Ej|Ej]; try congruence; cbn; try lia.
    rewrite <- Ei, F. lia.
  - unbind H as [st1 s1] E. cbn [fst snd] in H. apply (status_leaf_budget id) in E.
    assert (Q : status_leaf l s1 = Ok (st, s') -> budget id s' <= budget id s).
    { intros H'. apply (status_leaf_budget id) in H'. lia. }
    destruct st1; auto. destruct (params l) as [|[p| |] ps] eqn:Ep; try discriminate.
    destruct (lookup p (files (wd s1))) as [c|]; try discriminate. rewrite <- Ep in H.
    unbind H as [x s2] E2. cbn [snd] in H. apply (decide_budget id) in E2. apply (status_leaf_budget id) in H. rewrite N in E2 by congruence. lia.
  - destruct (filter _ (params l)) as [|[| |t] ps]; try discriminate.
    unbind H as [x s2] E2. cbn [snd] in H. apply (decide_budget id) in E2. apply (status_leaf_budget id) in H. rewrite N in E2 by congruence. lia.
Qed.
Definition commands (id : nat) (b : builder) : Prop := forall l, In l (leaves b) -> lid l = id -> lkind l = Command.
Lemma clear_budget id l : forall s l' s', clear_subs l s = Ok (l', s') ->
  budget id s' <= budget id s /\ (forall x, In x (flat_map leaves l') -> In x (flat_map leaves l)).
Proof.
  induction l as [|b l IH]; intros s l' s' H; cbn [Builders.clear_subs] in H; [injection H as <- <-; auto|].
  unbind H as [x sx] Ex. unbind H as [y sy] Ey. cbn [fst snd] in *. injection H as <- <-. apply (status_of_budget id) in Ex.
  destruct (IH _ _ _ Ey) as [B I]. split; [lia|]. intros z Hz. cbn. apply in_or_app.
  destruct (status_eqb x Done); [right; auto|]. cbn in Hz. apply in_app_or in Hz as [Hz|Hz]; auto.
Qed.
Lemma finish_budget id c l s st b' s' : finish c l s = Ok (st, b', s') ->
  budget id s' <= budget id s /\ (forall x, In x (leaves b') -> In x (flat_map leaves l)).
Proof.
  intros H. unfold Builders.finish in H. unbind H as [st2 s2] E2. unbind H as [x s3] E3. unbind H as [l4 s4] E4. cbn [fst snd] in *.
  injection H as <- <- <-. apply (status_of_budget id) in E2.
  assert (T3 : budget id s3 = budget id s2). { destruct (status_eqb st2 Done); [eapply needed_of_budget; eauto|injection E3 as <- <-; auto]. }
  destruct (clear_done c); [|injection E4 as <- <-; split; [lia|auto]].
  apply (clear_budget id) in E4. destruct E4 as [B I]. split; [lia|exact I].
Qed.
Lemma build_budget id b : commands id b -> forall s st b' s', build b s = Ok (st, b', s') ->
  budget id s' <= budget id s /\ (forall x, In x (leaves b') -> In x (leaves b)).
Proof.
  induction b as [l|c l IH] using builder_rect'; intros N s st b' s' H; cbn [Builders.build] in H.
  - unbind H as [st1 s1] E. cbn [fst snd] in H. injection H as <- <- <-. split; auto. eapply build_leaf_budget; eauto. apply N. now left.
  - fold build in H. unbind H as [st1 s1] E1. unbind H as [l2 s2] E2. cbn [fst snd] in *.
    apply (status_of_budget id) in E1. apply (finish_budget id) in H. destruct H as [B I].
    assert (X : budget id s2 <= budget id s1 /\ (forall x, In x (flat_map leaves l2) -> In x (flat_map leaves l))).
    { destruct (going st1); [|injection E2 as <- <-; auto]. clear B I E1. revert s1 l2 E2. induction l as [|b l IHl]; intros s1 l2 E2; cbn [Builders.run_once] in E2.
      - injection E2 as <- <-; auto.
      - inversion IH as [|? ? IHb IHr]; subst. unbind E2 as [x s3] E3. cbn [fst snd] in E2. apply (status_of_budget id) in E3. fold (run_once build (parallel c)) in E2.
        assert (Nb : commands id b). { intros y Hy. apply N. cbn. apply in_or_app. now left. }
        assert (Nl : commands id (Comp c l)). { intros y Hy. apply N. cbn. apply in_or_app. now right. }
        specialize (IHl IHr Nl).
        assert (goon : forall s4 b0 y, budget id s4 <= budget id s1 -> (forall z, In z (leaves b0) -> In z (leaves b)) ->
                  run_once build (parallel c) l s4 = Ok (y, s2) -> budget id s2 <= budget id s1 /\
                  (forall z, In z (flat_map leaves (b0 :: y)) -> In z (flat_map leaves (b :: l)))).
        { intros s4 b0 y B4 I4 H4. destruct (IHl _ _ H4) as [B5 I5]. split; [lia|]. intros z Hz. cbn in *. apply in_app_or in Hz. apply in_or_app. destruct Hz; auto. }
        destruct x.
        + unbind E2 as [y s4] E4. cbn [fst snd] in E2. injection E2 as <- <-. eapply goon; [|  |exact E4]; auto.
        + unbind E2 as [[x4 b4] s4] E4. cbn [fst snd] in E2. destruct (IHb Nb _ _ _ _ E4) as [B4 I4].
          destruct (parallel c).
          * unbind E2 as [y s5] E5. cbn [fst snd] in E2. injection E2 as <- <-. eapply goon; [|  |exact E5]; auto. lia.
          * injection E2 as <- <-. split; [lia|]. intros z Hz. cbn in *. apply in_app_or in Hz. apply in_or_app. destruct Hz; auto.
        + destruct (parallel c).
          * unbind E2 as [y s5] E5. cbn [fst snd] in E2. injection E2 as <- <-. eapply goon; [|  |exact E5]; auto.
          * injection E2 as <- <-. split; [lia|]. auto.
        + injection E2 as <- <-. split; [lia|]. auto.
        + injection E2 as <- <-. split; [lia|]. auto.
        + injection E2 as <- <-. split; [lia|]. auto.
        + injection E2 as <- <-. split; [lia|]. auto. }
    destruct X as [B2 I2]. split; [lia|]. intros x Hx. cbn. auto.
Qed.
Lemma run_once_budget id c (l : list builder) : commands id (Comp c l) ->
  forall s l' s', run_once build (parallel c) l s = Ok (l', s') ->
  budget id s' <= budget id s /\ (forall x, In x (flat_map leaves l') -> In x (flat_map leaves l)).
Proof.
  intros N. induction l as [|b l IH]; intros s l' s' H; cbn [Builders.run_once] in H.
  - injection H as <- <-; auto.
  - unbind H as [x s3] E3. cbn [fst snd] in H. apply (status_of_budget id) in E3. fold (run_once build (parallel c)) in H.
    assert (Nb : commands id b). { intros y Hy. apply N. cbn. apply in_or_app. now left. }
    assert (Nl : commands id (Comp c l)). { intros y Hy. apply N. cbn. apply in_or_app. now right. }
    specialize (IH Nl).
    assert (goon : forall s4 b0 y s9, budget id s4 <= budget id s -> (forall z, In z (leaves b0) -> In z (leaves b)) ->
              run_once build (parallel c) l s4 = Ok (y, s9) -> budget id s9 <= budget id s /\
              (forall z, In z (flat_map leaves (b0 :: y)) -> In z (flat_map leaves (b :: l)))).
    { intros s4 b0 y s9 B4 I4 H4. destruct (IH _ _ _ H4) as [B5 I5]. split; [lia|]. intros z Hz. cbn in *. apply in_app_or in Hz. apply in_or_app. destruct Hz; auto. }
    destruct x.
    + unbind H as [y s4] E4. cbn [fst snd] in H. injection H as <- <-. eapply goon; [|  |exact E4]; auto.
    + unbind H as [[x4 b4] s4] E4. cbn [fst snd] in H. destruct (build_budget id b Nb _ _ _ _ E4) as [B4 I4].
      destruct (parallel c).
      * unbind H as [y s5] E5. cbn [fst snd] in H. injection H as <- <-. eapply goon; [|  |exact E5]; auto. lia.
      * injection H as <- <-. split; [lia|]. intros z Hz. cbn in *. apply in_app_or in Hz. apply in_or_app. destruct Hz; auto.
    + destruct (parallel c).
      * unbind H as [y s5] E5. cbn [fst snd] in H. injection H as <- <-. eapply goon; [|  |exact E5]; auto.
      * injection H as <- <-. split; [lia|]. auto.
    + injection H as <- <-. split; [lia|]. auto.
    + injection H as <- <-. split; [lia|]. auto.
    + injection H as <- <-. split; [lia|]. auto.
    + injection H as <- <-. split; [lia|]. auto.
Qed.
Lemma build_complete_budget id n c : forall l s st b' s', commands id (Comp c l) -> build_complete n c l s = Ok (st, b', s') ->
  budget id s' <= budget id s /\ (forall x, In x (leaves b') -> In x (flat_map leaves l)).
Proof.
  induction n as [|n IH]; intros l s st b' s' N H; cbn [Builders.build_complete] in H; [injection H as <- <- <-; auto|].
  unbind H as [st1 s1] E1. cbn [fst snd] in *. apply (status_of_budget id) in E1. destruct (going st1).
  - unbind H as [l2 s2] E2. cbn [fst snd] in H. apply (run_once_budget id) in E2; auto. destruct E2 as [B2 I2].
    apply IH in H. 2:{ intros x Hx. apply N. cbn. auto. } destruct H as [B3 I3]. split; [lia|auto].
  - unbind H as [[st2 b2] s2] E2. cbn [fst snd] in H. injection H as <- <- <-. apply (finish_budget id) in E2. destruct E2. split; [lia|auto].
Qed.
Lemma polled_budget id b s b' s' : polled digest hexdigest encode bytes_str b s b' s' -> commands id b ->
  budget id s' <= budget id s /\ commands id b'.
Proof.
  intros H N. induction H as [b s|b s b1 s1 st s2 H IH E|b s b1 s1 st b2 s2 H IH E|b s c subs s1 n st b2 s2 H IH E]; auto; destruct (IH N) as [B C].
  - apply (status_of_budget id) in E. split; auto. lia.
  - destruct (build_budget id b1 C _ _ _ _ E) as [B2 I]. split; [lia|]. intros l Hl. apply C. auto.
  - destruct (build_complete_budget id n c _ _ _ _ _ C E) as [B2 I]. split; [lia|]. intros l Hl. apply C. cbn. auto.
Qed.
End B.

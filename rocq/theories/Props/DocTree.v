(** Properties C35, C36 and C37 *)
From Coq Require Import List Bool Arith NArith Lia.
From Verif.Base Require Import Str StrFacts Dict DictFacts Result PurePath.
From Verif.Model Require Import DocTree.
From Verif.Spec Require Import DocTree.
From Verif.Proof Require Import DocTree.
Import ListNotations.

Lemma bounded (fs : files) : exists now, forall p f, lookup p fs = Some f -> (fmtime f <= now)%N.
Proof.
  induction fs as [|[k v] fs [m IH]]; [exists 0%N; discriminate|]. exists (N.max m (fmtime v)). intros p f L. cbn in L.
  destruct (eqb p k); [injection L as <-; lia|]. specialize (IH _ _ L). lia.
Qed.

Section Open.
Variables (fs : files) (p : path) (now : N).
Hypothesis Hfs : forall p f, lookup p fs = Some f -> (fmtime f <= now)%N.
Definition h0 : heap := set_doc 0 (new_doc fs p None) empty.
Lemma h0_doc : lookup 0 (docs h0) = Some (new_doc fs p None).
Proof. apply set_doc_eq. Qed.
Lemma h0_only j d : lookup j (docs h0) = Some d -> j = 0 /\ d = new_doc fs p None.
Proof. unfold h0. rewrite lookup_set_doc. destruct (eqb_spec j 0) as [->|]; [intros E; injection E as <-; auto|discriminate]. Qed.
Lemma h0_wf : WF h0.
Proof.
  split; [reflexivity|]. intros i d k e L I. apply h0_only in L as [-> ->]. contradiction.
Qed.
Lemma h0_ti : TI fs now h0.
Proof.
  intros j d L. apply h0_only in L as [-> ->]. split; cbn; [|discriminate].
  intros m E. destruct (lookup p fs) as [f|] eqn:F; [|discriminate]. injection E as <-. eauto.
Qed.
Lemma h0_src q : srcs_of h0 0 q -> q = p.
Proof. intros (e & d & T & L & S). apply h0_only in L as [-> ->]. now subst. Qed.
Lemma open_kept n : kept fs now 0 h0 (fst (open_root n fs p)) (snd (open_root n fs p)).
Proof. apply (load_kept fs 0 now Hfs n 0 h0 h0_wf h0_ti). eexists. apply h0_doc. Qed.
Lemma open_first n h b : (forall q f, lookup q fs = Some f -> NoDup (fincludes f)) -> open_root n fs p = (h, Ok b) -> first fs 0 0 h0 h.
Proof.
  intros Nd E. assert (Eh : h = fst (load fs 0 n 0 h0)) by (change (load fs 0 n 0 h0) with (open_root n fs p); now rewrite E). rewrite Eh.
  apply (load_first fs 0 now Hfs Nd n 0 h0 (new_doc fs p None) b); auto using h0_wf, h0_ti, h0_doc.
  - intros j dj k e Hj. lia.
  - change (load fs 0 n 0 h0) with (open_root n fs p). now rewrite E.
Qed.
End Open.


Lemma tree_closed fs p n h b now : (forall p f, lookup p fs = Some f -> (fmtime f <= now)%N) ->
  (forall q f, lookup q fs = Some f -> NoDup (fincludes f)) -> open_root n fs p = (h, Ok b) ->
  WF h /\ srcs_of h 0 p /\ (forall q r, srcs_of h 0 q -> edge fs q r -> srcs_of h 0 r) /\ first fs 0 0 (h0 fs p) h.
Proof.
  intros Hfs Nd E.
  pose proof (open_kept fs p now Hfs n) as (W & T & G & K). pose proof (open_first fs p now Hfs n h b Nd E) as F.
  rewrite E in *. cbn [fst snd] in *. destruct (K b eq_refl) as [_ [_ Gd0]].
  destruct (gr_src _ _ _ G _ _ (h0_doc fs p)) as (d0 & L0 & S0 & _).
  assert (R0 : srcs_of h 0 p) by (exists 0, d0; split; [eapply tree_self; eauto|auto]).
  split; auto. split; auto. split; auto. intros q r (e & d & Te & Le & Se) (f & Lf & I).
  destruct (Gd0 _ Te) as (d' & f' & Ld & Lf' & _ & _ & Inc). assert (d' = d) as -> by congruence. rewrite Se in Lf'. assert (f' = f) as -> by congruence.
  rewrite <- Inc in I. destruct (o_inc _ _ _ _ _ F e d r Te Le I) as [|X]; auto. now rewrite (h0_src _ _ _ X).
Qed.

(** When loading the root document succeeds, its documents are those reached by
    includes, each listed once -- if no document lists an include twice. *)
Theorem C35_complete fs p n h b :
  (forall q f, lookup q fs = Some f -> NoDup (fincludes f)) -> open_root n fs p = (h, Ok b) ->
  NoDup (sources h 0) /\ forall q, In q (sources h 0) <-> reach fs p q.
Proof.
  intros Nd E. destruct (bounded fs) as [now Hfs]. destruct (tree_closed fs p n h b now Hfs Nd E) as (W & R0 & Cl & F).
  split; [apply doc_dict_wf|]. intros q. unfold sources. fold (keys (documents_dict h 0)). rewrite dd_keys by auto. split.
  - intros (e & d & Te & Le & Se). pose proof (o_reach _ _ _ _ _ F e Te) as X. unfold at_ in X. rewrite h0_doc, Le, Se in X. exact X.
  - intros R. clear E F. revert R0. induction R as [a|a c r Ed R IH]; auto. intros Ra. apply IH. eapply Cl; eauto.
Qed.

Lemma reach_trans fs a b c : reach fs a b -> reach fs b c -> reach fs a c.
Proof. intros H. induction H; auto. intros X. eapply reach_step; eauto. Qed.

Lemma loads_at fs p n h b now : (forall p f, lookup p fs = Some f -> (fmtime f <= now)%N) ->
  (forall q f, lookup q fs = Some f -> NoDup (fincludes f)) -> open_root n fs p = (h, Ok b) ->
  loads h = rev (map (at_ h) (seq 0 (length (docs h)))) /\ at_ h 0 = p /\
  (forall j, j < length (docs h) -> reach fs p (at_ h j)) /\
  (forall j dj, 0 < j -> lookup j (docs h) = Some dj -> exists q, parent dj = Some q /\ q < j /\ edge fs (at_ h q) (src dj)).
Proof.
  intros Hfs Nd E. destruct (tree_closed fs p n h b now Hfs Nd E) as (W & _ & _ & F).
  assert (A0 : at_ h 0 = p).
  { pose proof (open_kept fs p now Hfs n) as (_ & _ & G & _). rewrite E in G. cbn [fst] in G. destruct (gr_src _ _ _ G _ _ (h0_doc fs p)) as (d0 & L0 & S0 & _). unfold at_. now rewrite L0. }
  split; [rewrite (o_loads _ _ _ _ _ F), Nat.sub_0_r; cbn [h0 set_doc loads empty]; apply app_nil_r|]. split; auto. split.
  - intros j. induction j as [j IH] using lt_wf_ind. intros Hj. destruct j as [|j]; [rewrite A0; apply reach_refl|].
    destruct (proj2 (num_lookup h (S j) (wf_num _ W)) Hj) as [dj Lj]. destruct (o_par _ _ _ _ _ F (S j) dj (Nat.lt_0_succ _) Lj) as (q & Pq & Hq & Eq).
    apply (reach_trans fs p (at_ h q)); [apply IH; lia|]. unfold at_ at 2. rewrite Lj. eapply reach_step; eauto. apply reach_refl.
  - intros j dj Hj Lj. destruct (o_par _ _ _ _ _ F j dj Hj Lj) as (q & Pq & Hq & Eq). exists q. split; auto. split; [lia|auto].
Qed.

(** The documents that were read are those reached by includes. *)
Theorem C35_loaded fs p n h b :
  (forall q f, lookup q fs = Some f -> NoDup (fincludes f)) -> open_root n fs p = (h, Ok b) ->
  forall q, In q (loads h) <-> reach fs p q.
Proof.
  intros Nd E q. destruct (bounded fs) as [now Hfs]. destruct (loads_at fs p n h b now Hfs Nd E) as (O & A0 & Re & _). rewrite O, <- in_rev, in_map_iff. split.
  - intros (j & <- & Hj). apply in_seq in Hj. apply Re. lia.
  - intros R. destruct (tree_closed fs p n h b now Hfs Nd E) as (W & R0 & Cl & _).
    assert (X : srcs_of h 0 q) by (clear - R R0 Cl; revert R0; induction R as [a|a c r Ed R IH]; auto; intros Ra; apply IH; eapply Cl; eauto).
    destruct X as (e & d & Te & Le & Se). exists e. split; [unfold at_; now rewrite Le|]. apply in_seq. pose proof (wf_lt _ _ _ W Le). lia.
Qed.

(** Each document is read once, if no document is included from two places.
    Missing: documents that are included from several documents. *)
Theorem C35_once_partial fs p n h b :
  (forall q f, lookup q fs = Some f -> NoDup (fincludes f)) ->
  (forall a a' q, reach fs p a -> reach fs p a' -> edge fs a q -> edge fs a' q -> a = a') ->
  (forall a, reach fs p a -> ~ edge fs a p) ->
  open_root n fs p = (h, Ok b) -> NoDup (loads h).
Proof.
  intros Nd Un Nr E. destruct (bounded fs) as [now Hfs]. destruct (loads_at fs p n h b now Hfs Nd E) as (O & A0 & Re & Pa).
  destruct (tree_closed fs p n h b now Hfs Nd E) as (W & _ & _ & F). rewrite O. apply NoDup_rev.
  assert (X : forall a c, a < length (docs h) -> c < length (docs h) -> at_ h a = at_ h c -> a = c).
  { intros a. induction a as [a IH] using lt_wf_ind. intros c Ha Hc Eq.
    destruct (proj2 (num_lookup h a (wf_num _ W)) Ha) as [da La]. destruct (proj2 (num_lookup h c (wf_num _ W)) Hc) as [dc Lc].
    assert (Ea : at_ h a = src da) by (unfold at_; now rewrite La). assert (Ec : at_ h c = src dc) by (unfold at_; now rewrite Lc).
    destruct a as [|a], c as [|c]; auto.
    - exfalso. destruct (Pa _ _ (Nat.lt_0_succ c) Lc) as (q & _ & Hq & Ed). apply (Nr (at_ h q)); [apply Re; lia|]. rewrite <- A0 at 1. rewrite Eq, Ec. exact Ed.
    - exfalso. destruct (Pa _ _ (Nat.lt_0_succ a) La) as (q & _ & Hq & Ed). apply (Nr (at_ h q)); [apply Re; lia|]. rewrite <- A0 at 1. rewrite <- Eq, Ea. exact Ed.
    - destruct (Pa _ _ (Nat.lt_0_succ a) La) as (qa & Pqa & Hqa & Eda). destruct (Pa _ _ (Nat.lt_0_succ c) Lc) as (qc & Pqc & Hqc & Edc).
      assert (Es : src da = src dc) by congruence.
      assert (qa = qc). { apply IH; try lia. apply (Un _ _ (src da)); [apply Re; lia|apply Re; lia|auto|congruence]. }
      apply (o_uni _ _ _ _ _ F (S a) (S c) da dc); auto using Nat.lt_0_succ; congruence. }
  assert (Y : forall l, NoDup l -> (forall j, In j l -> j < length (docs h)) -> NoDup (map (at_ h) l)).
  { induction l as [|j l IHl]; intros N B; cbn; constructor; inversion N; subst.
    - rewrite in_map_iff. intros (k & Ek & Hk). assert (k = j) as -> by (apply X; auto; apply B; [right; auto|now left]). contradiction.
    - apply IHl; auto. intros k Hk. apply B. now right. }
  apply Y; [apply seq_NoDup|]. intros j Hj. apply in_seq in Hj. lia.
Qed.

(** ** Examples and counterexamples *)
Definition pR : path := mkpath false [lit "r"].
Definition pA : path := mkpath false [lit "a"].
Definition pB : path := mkpath false [lit "b"].
Definition pC : path := mkpath false [lit "c"].
Definition fl (t : N) (incs : list path) : file := {| fmtime := t; contents := t; fincludes := incs; small := true; good := true |}.

(** Finding: a document that is included by the root and by a document the root
    includes before it is read twice. *)
Theorem C35_once_refuted : ~ (forall fs p n h b, (forall q f, lookup q fs = Some f -> NoDup (fincludes f)) -> acyclic fs p -> open_root n fs p = (h, Ok b) -> NoDup (loads h)).
Proof.
  intros H. set (fs := [(pR, fl 1 [pA; pC]); (pA, fl 1 [pC]); (pC, fl 1 [])]).
  destruct (open_root 5 fs pR) as [h r] eqn:E.
  assert (El : loads h = [pC; pC; pA; pR] /\ r = Ok true).
  { assert (X : (loads (fst (open_root 5 fs pR)), snd (open_root 5 fs pR)) = ([pC; pC; pA; pR], Ok true)) by (vm_compute; reflexivity).
    rewrite E in X. cbn [fst snd] in X. split; congruence. }
  destruct El as [El ->].
  assert (Ed : forall a q, edge fs a q -> (a = pR /\ (q = pA \/ q = pC)) \/ (a = pA /\ q = pC)).
  { intros a q (f & L & I). unfold fs in L. cbn [lookup] in L.
    destruct (eqb_spec a pR) as [->|]; [injection L as <-; cbn in I; intuition|].
    destruct (eqb_spec a pA) as [->|]; [injection L as <-; cbn in I; intuition|].
    destruct (eqb_spec a pC) as [->|]; [injection L as <-; contradiction|discriminate]. }
  assert (Nd : NoDup (loads h)).
  { apply (H fs pR 5 h true); auto.
    - intros q f L. unfold fs in L. cbn [lookup] in L.
      destruct (eqb q pR); [injection L as <-; constructor; [cbn; intros [C|[]]; discriminate|constructor; [intros []|constructor]]|].
      destruct (eqb q pA); [injection L as <-; constructor; [intros []|constructor]|].
      destruct (eqb q pC); [injection L as <-; constructor|discriminate].
    - assert (X : forall a q, path_to fs pR a q -> q = pA \/ q = pC) by (intros a q P; induction P as [a q (O & _)|]; auto; apply Ed in O; intuition).
      intros a P. assert (Y : forall q, path_to fs pR q a -> (q = pR /\ (a = pA \/ a = pC)) \/ (q = pA /\ a = pC)).
      { intros q P'. clear P. induction P' as [q a (O & _)|q a r (O & _) P' IH]; [now apply Ed|]. apply Ed in O. destruct O as [[-> O]|[-> ->]]; [left; split; auto; exact (X _ _ P')|].
        destruct IH as [[C _]|[C _]]; discriminate. }
      destruct (Y _ P) as [[-> [C|C]]|[-> C]]; discriminate. }
  rewrite El in Nd. inversion Nd as [|x l C _]; subst. apply C. now left.
Qed.

(** Finding: a document that lists an include twice loses what that include
    includes: here c is reached but is not among the documents. *)
Theorem C35_twice_refuted : ~ (forall fs p n h b, acyclic fs p -> open_root n fs p = (h, Ok b) -> forall q, reach fs p q -> In q (sources h 0)).
Proof.
  intros H. set (fs := [(pR, fl 1 [pA; pA]); (pA, fl 1 [pC]); (pC, fl 1 [])]).
  destruct (open_root 5 fs pR) as [h r] eqn:E.
  assert (El : sources h 0 = [pR; pA] /\ r = Ok true).
  { assert (X : (sources (fst (open_root 5 fs pR)) 0, snd (open_root 5 fs pR)) = ([pR; pA], Ok true)) by (vm_compute; reflexivity).
    rewrite E in X. cbn [fst snd] in X. split; congruence. }
  destruct El as [El ->].
  assert (Ed : forall a q, edge fs a q -> (a = pR /\ q = pA) \/ (a = pA /\ q = pC)).
  { intros a q (f & L & I). unfold fs in L. cbn [lookup] in L.
    destruct (eqb_spec a pR) as [->|]; [injection L as <-; cbn in I; intuition|].
    destruct (eqb_spec a pA) as [->|]; [injection L as <-; cbn in I; intuition|].
    destruct (eqb_spec a pC) as [->|]; [injection L as <-; contradiction|discriminate]. }
  assert (I : In pC (sources h 0)).
  { apply (H fs pR 5 h true); auto.
    - assert (X : forall a q, path_to fs pR a q -> (a = pR /\ q = pA) \/ q = pC).
      { intros a q P. induction P as [a q (O & _)|a q r (O & _) P IH]; [apply Ed in O; intuition|]. apply Ed in O. destruct O as [[-> ->]|[-> ->]]; (destruct IH as [[C _]|IH]; [discriminate|auto]). }
      assert (Z : forall q, ~ path_to fs pR pC q) by (intros q P; inversion P as [? ? (O & _)|? ? ? (O & _)]; subst; apply Ed in O; destruct O as [[C _]|[C _]]; discriminate).
      intros a P. destruct (X _ _ P) as [[-> C]| ->]; [discriminate|]. exact (Z _ P).
    - apply (reach_step fs pR pA); [exists (fl 1 [pA; pA]); split; [reflexivity|now left]|]. apply (reach_step fs pA pC); [exists (fl 1 [pC]); split; [reflexivity|now left]|]. apply reach_refl. }
  rewrite El in I. destruct I as [C|[C|[]]]; discriminate.
Qed.

Example C35_ex :
  let fs := [(pR, fl 1 [pA; pB]); (pA, fl 1 [pC; pA]); (pB, fl 1 []); (pC, fl 1 [])] in
  (forall q f, lookup q fs = Some f -> NoDup (fincludes f)) /\
  sources (fst (open_root 5 fs pR)) 0 = [pR; pA; pC; pB] /\ loads (fst (open_root 5 fs pR)) = [pB; pC; pA; pR] /\ snd (open_root 5 fs pR) = Ok true.
Proof.
  cbv zeta. split; [|vm_compute; auto]. intros q f L. cbn [lookup] in L.
  assert (X : forall a c : path, a <> c -> NoDup [a; c]) by (intros a c N; constructor; [cbn; intros [C|[]]; congruence|constructor; [intros []|constructor]]).
  destruct (eqb q pR); [injection L as <-; apply X; discriminate|].
  destruct (eqb q pA); [injection L as <-; apply X; discriminate|].
  destruct (eqb q pB); [injection L as <-; constructor|].
  destruct (eqb q pC); [injection L as <-; constructor|discriminate].
Qed.

(** ** Termination *)
(** Loading ends without an error when all the files that are reached can be
    loaded, there are no cycles of includes -- but for cycles through the root,
    and documents that include themselves -- and the depth of the calls may
    exceed the number of the files by one.  Missing: other cycles. *)
Theorem C36_terminates_partial fs p n :
  loadable fs p -> acyclic fs p -> length fs + 1 <= n -> exists h b, open_root n fs p = (h, Ok b).
Proof.
  intros Hl Ha Hn. destruct (bounded fs) as [now Hfs].
  destruct (load_ends fs 0 now Hfs p Hl Ha n 0 (h0 fs p) (new_doc fs p None) nil (h0_wf fs p) (h0_ti fs p now Hfs) (h0_doc fs p) eq_refl eq_refl) as [b E].
  - eexists. split; [apply h0_doc|reflexivity].
  - constructor; [intros []|constructor].
  - intros s [].
  - intros q [<-|[]]. destruct (Hl p (reach_refl _ _)) as (f & L & _). eapply lookup_Some_keys; eauto.
  - apply reach_refl.
  - cbn [length]. lia.
  - change (load fs 0 n 0 (h0 fs p)) with (open_root n fs p) in E. destruct (open_root n fs p) as [h r]. cbn in E. subst r. eauto.
Qed.

(** Finding: documents that include each other are created again and again, and
    the load ends with RecursionError whatever the limit. *)
Definition cyc : files := [(pR, fl 1 [pA]); (pA, fl 1 [pB]); (pB, fl 1 [pA])].
Lemma cyc_time p f : lookup p cyc = Some f -> (fmtime f <= 1)%N.
Proof.
  intros L. unfold cyc in L. cbn [lookup] in L. destruct (eqb p pR); [injection L as <-; cbn; lia|]. destruct (eqb p pA); [injection L as <-; cbn; lia|].
  destruct (eqb p pB); [injection L as <-; cbn; lia|discriminate].
Qed.
Lemma cyc_deep n : forall i h d, WF h -> TI cyc 1 h -> lookup i (docs h) = Some d -> subs d = nil -> loaded d = false ->
  length (docs h) = S i -> 0 < i -> closed_below i h -> src d = pA \/ src d = pB -> (forall k, srcs_of h 0 k -> k = pR) ->
  snd (load cyc 0 n i h) = Raise RecursionError.
Proof.
  induction n as [|n IH]; intros i h d W T L Sb Ld N Hi Cl Hs Hr; [reflexivity|]. cbn [load]. rewrite L.
  assert (X : exists f q, lookup (src d) cyc = Some f /\ small f = true /\ good f = true /\ fincludes f = [q] /\ q <> src d /\ (q = pA \/ q = pB)).
  { destruct Hs as [-> | ->]; [exists (fl 1 [pB]), pB|exists (fl 1 [pA]), pA]; (split; [reflexivity|]; split; [reflexivity|]; split; [reflexivity|]; split; [reflexivity|]; split; [discriminate|auto]). }
  destruct X as (f & q & F & Sm & Gf & Inc & Nq & Hq). rewrite F.
  assert (Q : load_required h d f = true) by (unfold load_required; now rewrite Ld). rewrite Q.
  rewrite (read_good _ _ _ _ Sm Gf).
  destruct (after_read cyc 1 cyc_time i h d f (Build_start _ _ _ _ _ _ W T L Sb F)) as (W1 & T1 & L1 & G1 & N1 & W2 & T2 & Gd2 & G2 & N2 & SR & TR & DD).
  set (h1 := note_load (src d) (set_doc i (doc_read d f) h)) in *.
  unfold andthen at 1. cbn [fst snd]. rewrite L1. cbn [doc_read src includes].
  set (h2 := set_doc i (set_subs nil (doc_read d f)) h1) in *. rewrite Inc. cbn [load_each].
  rewrite (proj2 (eqb_neq _ _) Nq), (DD _ Nq).
  assert (Hh : has q (documents_dict h1 0) = false).
  { apply has_false. rewrite dd_keys by auto. intros C. apply SR in C. apply Hr in C. destruct Hq as [Hq|Hq]; rewrite Hq in C; discriminate. }
  rewrite Hh. pose proof (WF_add cyc h2 q (Some i) W2) as A. destruct (add_doc cyc q (Some i) h2) as [e h3] eqn:Ea. destruct A as (W3 & Ei & N3 & Lnew & Low).
  assert (E : snd (load cyc 0 n e h3) = Raise RecursionError).
  2:{ destruct (load cyc 0 n e h3) as [h4 r4]. cbn [snd] in E. subst r4. reflexivity. }
  assert (Cl2 : closed_below i h2).
  { intros j dj k x Hj Lj I. rewrite (gr_low _ _ _ G2), (gr_low _ _ _ G1) in Lj by auto. eapply Cl; eauto. }
  assert (G3 : grows e h2 h3).
  { split; [exact Low|]. intros j dj Lj. exists dj. split; auto. rewrite Low; auto. rewrite Ei. apply (wf_lt _ _ _ W2 Lj). }
  assert (Ee : e = S i) by lia.
  apply (IH e h3 (new_doc cyc q (Some i)) W3); auto.
  - intros j dj Lj. destruct (Nat.lt_ge_cases j e) as [Hj|Hj]; [rewrite Low in Lj by auto; eapply T2; eauto|].
    assert (j = e) as -> by (pose proof (wf_lt _ _ _ W3 Lj); lia). rewrite Lnew in Lj. injection Lj as <-. split; cbn [new_doc mtime loaded]; [|discriminate].
    intros m Em. destruct (lookup q cyc) as [fp|] eqn:Lf; [|discriminate]. cbn [option_map] in Em. assert (m = fmtime fp) as -> by congruence. eapply cyc_time; eauto.
  - lia.
  - intros j dj k x Hj Lj I. rewrite Low in Lj by auto. destruct (wf_subs _ W2 _ _ _ _ Lj I) as (_ & ed & Le & _). rewrite Ei. apply (wf_lt _ _ _ W2 Le).
  - intros k Hk. apply Hr. apply SR.
    assert (G13 : grows i h1 h3) by (eapply grows_trans; [exact G2|]; eapply grows_weak; [|exact G3]; lia).
    assert (Cl1 : closed_below i h1) by (intros j dj k' x Hj Lj I; rewrite (gr_low _ _ _ G1) in Lj by auto; eapply Cl; eauto).
    apply (srcs_low i h1 h3 k 0 W1 Hi Cl1 G13). exact Hk.
Qed.
Lemma cyc_open n : snd (open_root n cyc pR) = Raise RecursionError.
Proof.
  destruct n as [|n]; [reflexivity|]. unfold open_root. cbn [add_doc]. 
  set (h := set_doc _ _ empty). assert (Eh : h = h0 cyc pR) by reflexivity. change (length (docs empty)) with 0. rewrite Eh.
  cbn [load]. rewrite h0_doc. change (lookup (src (new_doc cyc pR None)) cyc) with (Some (fl 1 [pA])).
  cbv match. change (load_required (h0 cyc pR) (new_doc cyc pR None) (fl 1 [pA])) with true. cbv match.
  rewrite (read_good 0 (new_doc cyc pR None) (fl 1 [pA]) (h0 cyc pR) eq_refl eq_refl).
  destruct (after_read cyc 1 cyc_time 0 (h0 cyc pR) (new_doc cyc pR None) (fl 1 [pA])) as (W1 & T1 & L1 & G1 & N1 & W2 & T2 & Gd2 & G2 & N2 & SR & TR & DD).
  { split; auto using h0_wf, h0_doc. apply h0_ti. apply cyc_time. }
  set (h1 := note_load _ (set_doc 0 (doc_read _ _) (h0 cyc pR))) in *.
  unfold andthen at 1. cbn [fst snd]. rewrite L1. cbn [doc_read src includes new_doc] in *.
  set (h2 := set_doc 0 (set_subs nil _) h1) in *. cbn [fl fincludes load_each].
  assert (Nq : pA <> pR) by discriminate. rewrite (proj2 (eqb_neq _ _) Nq), (DD _ Nq).
  assert (Hh : has pA (documents_dict h1 0) = false).
  { apply has_false. rewrite dd_keys by auto. intros C. apply SR in C. apply h0_src in C. discriminate. }
  rewrite Hh. pose proof (WF_add cyc h2 pA (Some 0) W2) as A. destruct (add_doc cyc pA (Some 0) h2) as [e h3] eqn:Ea. destruct A as (W3 & Ei & N3 & Lnew & Low).
  assert (E : snd (load cyc 0 n e h3) = Raise RecursionError).
  2:{ destruct (load cyc 0 n e h3) as [h4 r4]. cbn [snd] in E. subst r4. reflexivity. }
  assert (Ee : e = 1) by (rewrite Ei; exact (eq_trans N2 eq_refl)).
  assert (L3 : lookup 0 (docs h3) = lookup 0 (docs h2)) by (apply Low; lia).
  assert (L2 : lookup 0 (docs h2) = Some (set_subs nil (doc_read (new_doc cyc pR None) (fl 1 [pA])))) by apply set_doc_eq.
  apply (cyc_deep n e h3 (new_doc cyc pA (Some 0)) W3); auto.
  - intros j dj Lj. destruct (Nat.lt_ge_cases j e) as [Hj|Hj]; [rewrite Low in Lj by auto; eapply T2; eauto|].
    assert (j = e) as -> by (pose proof (wf_lt _ _ _ W3 Lj); lia). rewrite Lnew in Lj. injection Lj as <-. split; cbn [new_doc mtime loaded]; [|discriminate]. intros m Em. assert (m = 1%N) as -> by (vm_compute in Em; congruence). lia.
  - lia.
  - intros j dj k x Hj Lj I. assert (j = 0) as -> by lia. rewrite L3, L2 in Lj. injection Lj as <-. contradiction.
  - intros k (x & dx & Tx & Lx & Sx). rewrite L2 in L3. destruct (tree_inv _ _ _ _ Tx L3) as [->|(k' & s & I & _)]; [|contradiction].
    rewrite L3 in Lx. injection Lx as <-. now subst k.
Qed.
Theorem C36_cycle_refuted : ~ (forall fs p, loadable fs p -> exists n h b, open_root n fs p = (h, Ok b)).
Proof.
  intros H. destruct (H cyc pR) as (n & h & b & E).
  - assert (X : forall q r, reach cyc q r -> q = pR \/ q = pA \/ q = pB -> r = pR \/ r = pA \/ r = pB).
    { intros q r R. induction R as [q|q s r (f & L & I) R IH]; auto. intros Hq. apply IH.
      destruct Hq as [-> |[-> | ->]]; cbn in L; injection L as <-; destruct I as [<-|[]]; auto. }
    intros q R. destruct (X _ _ R (or_introl eq_refl)) as [-> |[-> | ->]]; (eexists; split; [reflexivity|split; reflexivity]).
  - pose proof (cyc_open n) as C. rewrite E in C. discriminate.
Qed.
Example C36_ex : (* a cycle through the root, and a document that includes itself *)
  let fs := [(pR, fl 1 [pA]); (pA, fl 1 [pB; pA]); (pB, fl 1 [pR])] in
  loadable fs pR /\ acyclic fs pR /\ length fs + 1 <= 4 /\ snd (open_root 4 fs pR) = Ok true.
Proof.
  cbv zeta. set (fs := [(pR, fl 1 [pA]); (pA, fl 1 [pB; pA]); (pB, fl 1 [pR])]).
  assert (Ed : forall a q, edge fs a q -> (a = pR /\ q = pA) \/ (a = pA /\ (q = pB \/ q = pA)) \/ (a = pB /\ q = pR)).
  { intros a q (f & L & I). unfold fs in L. cbn [lookup] in L.
    destruct (eqb_spec a pR) as [->|]; [injection L as <-; cbn in I; intuition|].
    destruct (eqb_spec a pA) as [->|]; [injection L as <-; cbn in I; intuition|].
    destruct (eqb_spec a pB) as [->|]; [injection L as <-; cbn in I; intuition|discriminate]. }
  split; [|split; [|split; [cbn; lia|vm_compute; reflexivity]]].
  - assert (X : forall q r, reach fs q r -> q = pR \/ q = pA \/ q = pB -> r = pR \/ r = pA \/ r = pB).
    { intros q r R. induction R as [q|q s r E R IH]; auto. intros _. apply IH. apply Ed in E. intuition. }
    intros q R. destruct (X _ _ R (or_introl eq_refl)) as [-> |[-> | ->]]; (eexists; split; [reflexivity|split; reflexivity]).
  - assert (O : forall a q, onward fs pR a q -> (a = pR /\ q = pA) \/ (a = pA /\ q = pB)).
    { intros a q (E & N1 & N2). apply Ed in E. destruct E as [E|[(-> & [E|E])|[E1 E2]]]; auto; congruence. }
    assert (X : forall a q, path_to fs pR a q -> (a = pR /\ (q = pA \/ q = pB)) \/ (a = pA /\ q = pB)).
    { intros a q P. induction P as [a q E|a q r E P IH]; apply O in E; destruct E as [[-> ->]|[-> ->]]; auto.
      - destruct IH as [[C _]|[_ ->]]; [discriminate|auto].
      - destruct IH as [[C _]|[C _]]; discriminate. }
    intros a P. destruct (X _ _ P) as [[-> [C|C]]|[-> C]]; discriminate.
Qed.

(** ** Reloading *)
Lemma TI_time fs fs' now now' h : TI fs now h -> (now <= now')%N ->
  (forall p f, lookup p fs' = Some f -> lookup p fs = Some f \/ (now < fmtime f)%N) -> TI fs' now' h.
Proof.
  intros T Hn Hf j d L. destruct (T _ _ L) as [A B]. split.
  - intros m E. specialize (A _ E). lia.
  - intros Ld. destruct (B Ld) as (m & Em & Hm). exists m. split; auto. intros f F Le. destruct (Hf _ _ F) as [F'|Lt]; auto. specialize (A _ Em). lia.
Qed.
Lemma run_TI es : forall now h fs, WF h -> (exists d, lookup 0 (docs h) = Some d) -> TI fs now h -> written_by now fs -> timely now es ->
  let s := run (h, fs) es in exists now', WF (fst s) /\ (exists d, lookup 0 (docs (fst s)) = Some d) /\ TI (snd s) now' (fst s) /\ written_by now' (snd s).
Proof.
  induction es as [|[p f|p|n] es IH]; intros now h fs W D T Wr Ti; cbv zeta; cbn [run fold_left step fst snd]; [exists now; auto| | |].
  - destruct Ti as [Lt Ti]. apply (IH (fmtime f)); auto.
    + apply (TI_time fs _ now); auto; [lia|]. intros q g L. rewrite lookup_set in L. destruct (eqb q p); [injection L as <-; auto|auto].
    + destruct Wr as [Wf Wr]. split; [now apply wf_set|]. intros q g L. rewrite lookup_set in L. destruct (eqb q p); [injection L as <-; lia|]. specialize (Wr _ _ L). lia.
  - cbn in Ti. apply (IH now); auto.
    + apply (TI_time fs _ now); auto; [lia|]. intros q g L. rewrite lookup_remove in L by apply Wr. destruct (eqb q p); [discriminate|auto].
    + destruct Wr as [Wf Wr]. split; [now apply wf_remove|]. intros q g L. rewrite lookup_remove in L by auto. destruct (eqb q p); [discriminate|]. eauto.
  - cbn in Ti. destruct (load_kept fs 0 now (proj2 Wr) n 0 h W T D) as (W' & T' & G & _). apply (IH now); auto.
    destruct D as [d L]. destruct (gr_src _ _ _ G _ _ L) as (d' & L' & _). eauto.
Qed.

(** After every history of writes, removals and loads -- failed ones too -- a load
    that succeeds leaves every document of the tree with what its file has now,
    if files are never given times that are not later than before. *)
Theorem C37_fresh fs p now n es n' h b :
  written_by now fs -> timely now es ->
  let s := run (fst (open_root n fs p), fs) es in
  load (snd s) 0 n' 0 (fst s) = (h, Ok b) -> forall e, in_tree h 0 e -> current (snd s) h e.
Proof.
  intros Wr Ti. cbv zeta. intros E e Te. pose proof (open_kept fs p now (proj2 Wr) n) as (W & T & G & _).
  assert (D : exists d, lookup 0 (docs (fst (open_root n fs p))) = Some d) by (destruct (gr_src _ _ _ G _ _ (h0_doc fs p)) as (d & L & _); eauto).
  destruct (run_TI es now _ fs W D T Wr Ti) as (now' & W' & D' & T' & Wr').
  destruct (load_kept _ 0 now' (proj2 Wr') n' 0 _ W' T' D') as (_ & _ & _ & K). rewrite E in K. cbn [fst snd] in K. destruct (K b eq_refl) as [_ [_ Gd0]]. auto.
Qed.

(** Finding: with a file that is replaced by one with an older time, the document
    keeps what it had. *)
Theorem C37_older_refuted : ~ (forall fs p n es n' h b, wf fs ->
  let s := run (fst (open_root n fs p), fs) es in
  load (snd s) 0 n' 0 (fst s) = (h, Ok b) -> forall e, in_tree h 0 e -> current (snd s) h e).
Proof.
  intros H. set (fs := [(pR, fl 10 [])]). set (es := [Write pR (fl 5 [])]).
  set (s := run (fst (open_root 3 fs pR), fs) es).
  destruct (load (snd s) 0 3 0 (fst s)) as [h r] eqn:E.
  assert (Wf : wf fs) by (constructor; [intros []|constructor]).
  specialize (H fs pR 3 es 3 h). fold s in H.
  assert (X : (option_map held (lookup 0 (docs (fst (load (snd s) 0 3 0 (fst s))))), snd (load (snd s) 0 3 0 (fst s))) = (Some (Some 10%N), Ok false)) by (vm_compute; reflexivity).
  rewrite E in X. cbn [fst snd] in X. injection X as Xd ->. specialize (H false Wf E 0).
  destruct (lookup 0 (docs h)) as [d|] eqn:L; [|discriminate]. cbn [option_map] in Xd.
  destruct H as (d' & f & L' & F & _ & Hd & _); [eapply tree_self; eauto|].
  assert (d' = d) as -> by congruence. assert (Sd : src d = pR).
  { assert (Y : option_map src (lookup 0 (docs (fst (load (snd s) 0 3 0 (fst s))))) = Some pR) by (vm_compute; reflexivity). rewrite E in Y. cbn [fst] in Y. rewrite L in Y. cbn in Y. congruence. }
  rewrite Sd in F. vm_compute in F. injection F as <-. cbn in Hd. congruence.
Qed.

(** Finding: a document may be read again at every load though nothing changes.
    Here d is first included by p; then the root includes d and p, and later p
    no longer includes d.  The context of d still has that of p as its parent,
    with a time later than that of d. *)
Theorem C37_idle_refuted : ~ (forall fs p now n es h b, written_by now fs -> timely now es ->
  let s := run (fst (open_root n fs p), fs) es in
  load (snd s) 0 n 0 (fst s) = (h, Ok b) -> loads (fst (load (snd s) 0 n 0 h)) = loads h).
Proof.
  intros H. set (fs := [(pR, fl 1 [pA]); (pA, fl 1 [pB]); (pB, fl 1 [])]).
  set (es := [Write pR (fl 20 [pB; pA]); Write pA (fl 30 [])]).
  set (s := run (fst (open_root 5 fs pR), fs) es).
  destruct (load (snd s) 0 5 0 (fst s)) as [h r] eqn:E.
  assert (Wf : written_by 1 fs).
  { split; [constructor; [cbn; intros [C|[C|[]]]; discriminate|constructor; [cbn; intros [C|[]]; discriminate|constructor; [intros []|constructor]]]|].
    intros q f L. unfold fs in L. cbn [lookup] in L. destruct (eqb q pR); [injection L as <-; cbn; lia|]. destruct (eqb q pA); [injection L as <-; cbn; lia|].
    destruct (eqb q pB); [injection L as <-; cbn; lia|discriminate]. }
  assert (Ti : timely 1 es) by (cbn; split; [lia|]; split; [lia|auto]).
  assert (Er : r = Ok true) by (change r with (snd (h, r)); rewrite <- E; vm_compute; reflexivity). subst r.
  specialize (H fs pR 1%N 5 es h true Wf Ti E). fold s in H.
  assert (Eh : h = fst (load (snd s) 0 5 0 (fst s))) by now rewrite E. rewrite Eh in H. apply (f_equal (@length path)) in H. revert H. vm_compute. intros C. congruence.
Qed.

(** Finding: when a document changes, what its sub-documents include is not read
    again, though it inherits from the document through them.  Here the root is
    written again: a is read again and b, which a includes, is not. *)
Theorem C37_inherit_refuted : ~ (forall fs p now n es f h b, written_by now fs -> timely now (es ++ [Write p f]) ->
  let s0 := run (fst (open_root n fs p), fs) es in
  let s := run s0 [Write p f] in
  load (snd s) 0 n 0 (fst s) = (h, Ok b) ->
  exists new, loads h = new ++ loads (fst s0) /\ forall e d, in_tree h 0 e -> lookup e (docs h) = Some d -> In (src d) new).
Proof.
  intros H. set (fs := [(pR, fl 1 [pA]); (pA, fl 1 [pB]); (pB, fl 1 [])]).
  set (s0 := run (fst (open_root 5 fs pR), fs) []). set (s := run s0 [Write pR (fl 20 [pA])]).
  destruct (load (snd s) 0 5 0 (fst s)) as [h r] eqn:E.
  assert (Wf : written_by 1 fs).
  { split; [constructor; [cbn; intros [C|[C|[]]]; discriminate|constructor; [cbn; intros [C|[]]; discriminate|constructor; [intros []|constructor]]]|].
    intros q f L. unfold fs in L. cbn [lookup] in L. destruct (eqb q pR); [injection L as <-; cbn; lia|]. destruct (eqb q pA); [injection L as <-; cbn; lia|].
    destruct (eqb q pB); [injection L as <-; cbn; lia|discriminate]. }
  assert (Ti : timely 1 ([] ++ [Write pR (fl 20 [pA])])) by (cbn; split; [lia|auto]).
  assert (Er : r = Ok true) by (change r with (snd (h, r)); rewrite <- E; vm_compute; reflexivity). subst r.
  destruct (H fs pR 1%N 5 [] (fl 20 [pA]) h true Wf Ti E) as (new & El & Hn). clear H.
  assert (Eh : h = fst (load (snd s) 0 5 0 (fst s))) by now rewrite E.
  assert (Ln : loads h = [pA; pR] ++ loads (fst s0)) by (rewrite Eh; vm_compute; reflexivity).
  fold s0 in El. rewrite Ln in El. apply app_inv_tail in El. subst new.
  assert (I : In pB (sources h 0)) by (rewrite Eh; vm_compute; right; right; left; reflexivity).
  pose proof (open_kept fs pR 1%N (proj2 Wf) 5) as (W0 & T0 & G0 & _).
  assert (D : exists d, lookup 0 (docs (fst (open_root 5 fs pR))) = Some d) by (destruct (gr_src _ _ _ G0 _ _ (h0_doc fs pR)) as (d & L & _); eauto).
  destruct (run_TI ([] ++ [Write pR (fl 20 [pA])]) 1 _ fs W0 D T0 Wf Ti) as (now' & W' & D' & T' & Wr').
  destruct (load_kept _ 0 now' (proj2 Wr') 5 0 _ W' T' D') as (W & _).
  change (run (fst (open_root 5 fs pR), fs) ([] ++ [Write pR (fl 20 [pA])])) with s in W. rewrite E in W. cbn [fst] in W.
  unfold sources in I. fold (keys (documents_dict h 0)) in I. apply dd_keys in I; auto. destruct I as (e & d & Te & Le & Se).
  specialize (Hn e d Te Le). rewrite Se in Hn. destruct Hn as [C|[C|[]]]; discriminate C.
Qed.

Example C37_ex :
  let fs := [(pR, fl 1 [pA]); (pA, fl 1 [])] in
  let es := [Write pA (fl 2 [pB]); Load 5; Write pB (fl 3 []); Remove pC] in
  let s := run (fst (open_root 5 fs pR), fs) es in
  written_by 1 fs /\ timely 1 es /\ snd (load (snd s) 0 5 0 (fst s)) = Ok true /\
  sources (fst (load (snd s) 0 5 0 (fst s))) 0 = [pR; pA; pB].
Proof.
  cbv zeta. split; [|split; [cbn; split; [lia|]; split; [lia|auto]|vm_compute; auto]].
  split; [constructor; [cbn; intros [C|[]]; discriminate|constructor; [intros []|constructor]]|].
  intros q f L. cbn [lookup] in L. destruct (eqb q pR); [injection L as <-; cbn; lia|]. destruct (eqb q pA); [injection L as <-; cbn; lia|discriminate].
Qed.

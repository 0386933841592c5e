(** Properties C31, C32, C56, C57, C58, and C28 for builders *)
From Coq Require Import List Bool Arith NArith Lia.
From Verif.Base Require Import Str StrFacts Dict DictFacts Result PurePath.
From Verif.Model Require Import Hash Decider Builders.
From Verif.Spec Require Import Decider Builders.
From Verif.Proof Require Import Decider Builders.
From Verif.Props Require Import Decider.
Import ListNotations.

Section Props.
Variables (digest hexdigest encode bytes_str : str -> str).
Notation status_leaf := (status_leaf digest hexdigest encode bytes_str).
Notation status_of := (status_of digest hexdigest encode bytes_str).
Notation build := (build digest hexdigest encode bytes_str).
Notation build_leaf := (build_leaf digest hexdigest encode bytes_str).
Notation build_loop := (build_loop digest hexdigest encode bytes_str).
Notation reads := (reads digest hexdigest encode bytes_str).
Notation polled := (polled digest hexdigest encode bytes_str).
Notation settled := (settled digest hexdigest encode bytes_str).

(** * C31 *)
(** The status of a builder is read by reading the statuses of all its parts that
    are not composite, at any depth, from left to right.  It is 'done' when all
    are, and otherwise the first one that is not 'done'. *)
Theorem C31_status : forall b s st s', status_of b s = Ok (st, s') <->
  exists sts, reads (leaves b) s sts s' /\
    ((st = Done /\ Forall (eq Done) sts) \/
     (st <> Done /\ exists l1 l2, sts = l1 ++ st :: l2 /\ Forall (eq Done) l1)).
Proof.
  intros b s st s'. rewrite status_of_reads. split; intros (sts & R & H); exists sts; split; auto.
  - destruct (status_eqb st Done) eqn:E.
    + apply status_eqb_eq in E. left. split; auto. apply first_open_done. congruence.
    + apply status_eqb_neq in E. right. split; auto. apply first_open_other; auto.
  - destruct H as [(-> & F)|(N & l1 & l2 & -> & F)].
    + symmetry. now apply first_open_done.
    + rewrite first_open_app, (proj2 (first_open_done l1) F). cbn. rewrite first_open_cons. now rewrite (proj2 (status_eqb_neq st Done) N).
Qed.

(** When nothing happens meanwhile: 'done' means that each part is done. *)
Theorem C31_done : forall b s st s', NoDup (ids b) -> settled b s -> status_of b s = Ok (st, s') ->
  (st = Done <-> forall l, In l (leaves b) -> exists s1, status_leaf l s = Ok (Done, s1)).
Proof.
  intros b s st s' N [Q St] H.
  assert (L : like (leaves b) s s) by (split; auto).
  destruct (status_of_like _ _ _ _ (leaves b) s b s st s' N St Q (fun l H => H) L H) as ((sts & F & ->) & _). rewrite first_open_done. clear -F.
  induction F as [|l st ls sts A F IH]; [split; auto; intros _ ? []|]. split.
  - intros H l' [<-|Hl]; inversion H; subst; [exact A|]. now apply IH.
  - intros H. constructor; [|apply IH; intros; apply H; now right]. destruct (H l) as [s1 H1]; [now left|]. destruct A as [s2 A]. congruence.
Qed.

(** Flattening gives all builders, each at its place: the parts that are not
    composite are as above. *)
Theorem C31_flatten : forall b, flat_map (fun x => match x with Leaf l => [l] | Comp _ _ => nil end) (flatten b) = leaves b.
Proof.
  induction b as [l|c l IH] using builder_rect'; [reflexivity|]. cbn. induction IH as [|b l Hb Hl IHl]; cbn; auto.
  now rewrite flat_map_app, Hb, IHl.
Qed.

(** * C32 *)
(** However the builders are polled, and whatever happens meanwhile: when a part
    is started, all parts that come before it in a sequential builder were done
    when last looked at. *)
Theorem C32_order : forall b s b' s' t1 y t2 x, NoDup (ids b) -> trace s = nil -> polled b s b' s' ->
  trace s' = t1 ++ Started y :: t2 -> before b x y -> last_seen x t1 = Some Done.
Proof.
  intros b s b' s' t1 y t2 x N T0 H E B. destruct (polled_builds _ _ _ _ _ _ _ _ H N) as (t & T & Bt).
  rewrite T0 in T. cbn in T. rewrite T in E. exact (b_order _ _ _ Bt _ _ _ _ E B).
Qed.

(** When the builder is done then all its parts were done when last looked at,
    also those that have been removed. *)
Theorem C32_finished : forall b s b' s' s2 x, NoDup (ids b) -> trace s = nil -> polled b s b' s' ->
  status_of b' s' = Ok (Done, s2) -> In x (ids b) -> last_seen x (trace s2) = Some Done.
Proof.
  intros b s b' s' s2 x N T0 H E I. destruct (polled_builds _ _ _ _ _ _ _ _ H N) as (t & T & Bt).
  apply status_of_trace in E. destruct E as (u & U & A & _ & G). rewrite U, T, T0. cbn.
  destruct (in_dec Nat.eq_dec x (ids b')) as [I'|I'].
  - apply last_seen_right. auto.
  - apply last_seen_left; [rewrite A; auto|]. eapply b_gone; eauto.
Qed.

(** A builder that is ready is not left idle: in a settled state a build starts
    something.  (That everything is finished in the end is refuted below.) *)
Theorem C32_starts_partial : forall b s s1 st b' s2, NoDup (ids b) -> settled b s ->
  status_of b s = Ok (Ready, s1) -> build b s = Ok (st, b', s2) ->
  exists t, trace s2 = trace s ++ t /\ starts t.
Proof.
  intros b s s1 st b' s2 N [Q St] H1 H2.
  assert (L : like (leaves b) s s) by (split; auto).
  destruct (status_of_like _ _ _ _ (leaves b) s b s _ _ N St Q (fun l H => H) L H1) as ((sts & F & O) & _).
  eapply (build_starts _ _ _ _ (leaves b) s b); eauto.
Qed.

(** Finding: a part that is ready is never built when an earlier part, of a
    parallel builder, has missing files. *)
Theorem C32_progress_refuted :
  ~ (forall c subs l s s1, parallel c = true -> In (Leaf l) subs -> sched s = nil -> status_leaf l s = Ok (Ready, s1) ->
     exists n st b' s', build_loop n (Comp c subs) s = Ok (st, b', s') /\ In (Started (lid l)) (trace s')).
Proof.
  intros H.
  set (l1 := {| lid := 1; lkind := Copy; active := true; params := [IPath (of_str (lit "a"))]; action := lit "copy"; out := of_str (lit "c") |}).
  set (l2 := {| lid := 2; lkind := Copy; active := true; params := [IPath (of_str (lit "b"))]; action := lit "copy"; out := of_str (lit "d") |}).
  set (c := {| parallel := true; clear_done := true; cparams := nil; caction := lit "parallel build"; cout := of_str (lit "e") |}).
  set (s := {| wd := {| files := [(of_str (lit "b"), lit "1")]; db := nil |}; futures := nil; checked := nil; sched := nil; trace := nil |}).
  destruct (H c [Leaf l1; Leaf l2] l2 s (note (Seen 2 Ready) s)) as (n & st & b' & s' & E & I); try reflexivity.
  { right. now left. }
  destruct n as [|n]; cbn [Builders.build_loop] in E.
  - injection E as <- <- <-. contradiction.
  - assert (X : forall s0, wd s0 = wd s -> sched s0 = nil ->
      status_of (Comp c [Leaf l1; Leaf l2]) s0 = Ok (MissingParameters, note (Seen 2 Ready) (note (Seen 1 MissingParameters) s0))).
    { intros [w f k sc t] W Q. cbn in W, Q. subst w sc. reflexivity. }
    rewrite X in E by reflexivity. cbn [bind fst snd going] in E. rewrite X in E by reflexivity. cbn [bind fst snd] in E.
    injection E as <- <- <-. cbn in I. intuition discriminate.
Qed.

(** * C58 *)
(** The process of a builder is started once at most, however often the builder
    is polled, and whatever happens meanwhile. *)
Theorem C58_once : forall b s b' s' id t1 t2 t3, trace s = nil -> polled b s b' s' ->
  (forall l, In l (leaves b) -> lid l = id -> lkind l = Command) ->
  trace s' <> t1 ++ Started id :: t2 ++ Started id :: t3.
Proof.
  intros b s b' s' id t1 t2 t3 T0 H C E.
  destruct (polled_budget _ _ _ _ id _ _ _ _ H C) as [B _]. unfold budget in B. rewrite E, T0 in B.
  rewrite count_app in B. unfold count in B. cbn in B. rewrite Nat.eqb_refl in B. cbn in B. rewrite filter_app in B. cbn in B. rewrite Nat.eqb_refl in B.
  rewrite app_length in B. cbn in B. unfold unstarted in B. destruct (lookup id (futures s)); lia.
Qed.
(** It is not started when there is one already. *)
Theorem C58_running : forall b s b' s' l f, trace s = nil -> polled b s b' s' -> lookup (lid l) (futures s) = Some f ->
  (forall l', In l' (leaves b) -> lid l' = lid l -> lkind l' = Command) ->
  ~ In (Started (lid l)) (trace s').
Proof.
  intros b s b' s' l f T0 H F C I.
  destruct (polled_budget _ _ _ _ (lid l) _ _ _ _ H C) as [B _]. unfold budget, unstarted in B. rewrite F, T0 in B. cbn in B.
  apply in_split in I. destruct I as (a & d & E). rewrite E, count_app in B. unfold count at 2 in B. cbn in B. rewrite Nat.eqb_refl in B. cbn in B. lia.
Qed.

(** * C28, for builders *)
(** Finding: a builder whose process has ended reports 'done' for ever after,
    although an input has changed since and the process has not been run again. *)
Theorem C28_stale_refuted :
  ~ (forall l s s1 p c s2 st, lkind l = Command -> In (IPath p) (params l) -> p <> out l ->
     status_leaf l s = Ok (Done, s1) -> sched s1 = nil -> lookup p (files (wd s1)) <> Some c ->
     status_leaf l (write p c s1) = Ok (st, s2) -> st <> Done).
Proof.
  intros H.
  set (a := of_str (lit "a")). set (o := of_str (lit "o")).
  set (l := {| lid := 1; lkind := Command; active := true; params := [IPath a]; action := lit "run"; out := o |}).
  set (s := {| wd := {| files := [(a, lit "1"); (o, lit "2")]; db := nil |}; futures := [(1, Exit 0)]; checked := [1]; sched := nil; trace := nil |}).
  assert (X : forall s0, futures s0 = [(1, Exit 0)] -> checked s0 = [1] -> sched s0 = nil -> present (wd s0) (inputs_of (params l) (action l)) o ->
    exists s1, status_leaf l s0 = Ok (Done, s1) /\ futures s1 = futures s0 /\ checked s1 = checked s0 /\ sched s1 = nil /\ files (wd s1) = files (wd s0)).
  { intros s0 F K Q P. rewrite status_leaf_pure by auto. unfold pure, pure_base. cbn [l lkind].
    unfold miss, missing_parameters, after. rewrite K, F. cbn [lid l mem existsb]. unfold mem. cbn [existsb]. rewrite eqb_refl. cbn [orb fst snd].
    assert (Hi : inputs_of (params l) (action l) <> nil) by discriminate.
    destruct (reset_spec digest hexdigest encode bytes_str _ _ _ Hi P) as (k & v & _ & R).
    destruct (needed_spec digest hexdigest encode bytes_str (wd s0) (inputs_of (params l) (action l)) o Hi) as [N|(N & _)]; cbn [out l].
    - fold o. fold l. rewrite N. cbn [bind fst snd negb lookup]. rewrite eqb_refl.
      destruct P as [P1 P2]. rewrite (proj2 (has_lookup o (files (wd s0))) P2). rewrite R. cbn. eexists. split; [reflexivity|].
      unfold missing_parameters. cbn [lkind l]. rewrite K. cbn. auto.
    - fold o. fold l. rewrite N. cbn. eexists. split; [reflexivity|]. unfold missing_parameters. cbn [lkind l]. rewrite K. cbn. auto. }
  assert (P : forall f, has a f = true -> has o f = true -> forall d, present {| files := f; db := d |} (inputs_of (params l) (action l)) o).
  { intros f Ha Ho d. split; [|now apply has_lookup]. intros p [E|[E|[]]]; [injection E as <-; now apply has_lookup|discriminate]. }
  destruct (X s) as (s1 & H1 & F1 & K1 & Q1 & W1); try reflexivity. { apply P; reflexivity. }
  destruct (X (write a (lit "3") s1)) as (s2 & H2 & _).
  { exact F1. } { exact K1. } { exact Q1. }
  { unfold write. cbn [wd set_wd]. rewrite W1. apply P; reflexivity. }
  apply (H l s s1 a (lit "3") s2 Done); auto; try discriminate; [now left|]. rewrite W1. discriminate.
Qed.

(** * C56 *)
(** Finding: 'inactive' is never reported, in particular not for builders whose
    executable is missing. *)
Theorem C56_inactive_refuted :
  ~ (forall l s st s', active l = false -> status_leaf l s = Ok (st, s') -> st = Inactive).
Proof.
  intros H.
  set (l := {| lid := 1; lkind := Command; active := false; params := nil; action := nil; out := of_str (lit "o") |}).
  set (s := {| wd := {| files := nil; db := nil |}; futures := nil; checked := nil; sched := nil; trace := nil |}).
  assert (E : status_leaf l s = Ok (MissingParameters, note (Seen 1 MissingParameters) s)) by reflexivity.
  specialize (H l s _ _ eq_refl E). discriminate.
Qed.

(** * C57 *)
Lemma writes : forall (s : sys) ps act o c, inputs_of ps act <> nil -> forallb (exists_in (wd s)) ps = true ->
  exists w, decide digest hexdigest encode bytes_str ps act o true (write o c s) = Ok (false, set_wd w s) /\
    files w = set o c (files (wd s)) /\ not_needed digest hexdigest encode bytes_str w (inputs_of ps act) o.
Proof.
  intros s ps act o c Hi F.
  assert (P : present (wd (write o c s)) (inputs_of ps act) o).
  { split; cbn.
    - intros p Hp. rewrite lookup_set. destruct (eqb p o); [eauto|]. apply has_lookup. rewrite forallb_forall in F.
      unfold inputs_of in Hp. apply in_app_or in Hp as [Hp|Hp]; [apply (F _ Hp)|]. destruct act; [contradiction|]. destruct Hp as [Hp|[]]; discriminate.
    - exists c. apply lookup_set_eq. }
  destruct (C28_registers digest hexdigest encode bytes_str _ _ _ Hi P) as (w & R & W & NN). exists w.
  unfold decide. rewrite R. cbn. split; [reflexivity|]. split; auto.
Qed.

(** A copy that is ready gives the output the bytes of its input, leaves all
    other files as they are, and is done then. *)
Theorem C57_copy : forall l s s1 p r c, lkind l = Copy -> sched s = nil -> params l = IPath p :: r ->
  status_leaf l s = Ok (Ready, s1) -> lookup p (files (wd s)) = Some c ->
  exists s', build_leaf l s = Ok (Done, s') /\ lookup (out l) (files (wd s')) = Some c /\
    forall q, q <> out l -> lookup q (files (wd s')) = lookup q (files (wd s)).
Proof.
  intros l s s1 p r c K Q Ep H L. unfold Builders.build_leaf. rewrite K, H. cbn [bind fst snd].
  rewrite status_leaf_pure in H by auto. unfold pure, pure_copy, after in H. rewrite K in H.
  unbind H as [st w] E. cbn [fst snd] in H. injection H as -> <-. unbind E as [x w'] E'.
  assert (Hi : inputs_of (params l) (action l) <> nil) by (rewrite Ep; discriminate).
  assert (w' = wd s) as ->.
  { destruct (needed_spec digest hexdigest encode bytes_str (wd s) _ (out l) Hi) as [N|(N & _)]; congruence. }
  cbn [fst snd] in E. destruct (negb x || _) eqn:X; [discriminate|]. destruct (forallb _ _) eqn:F; [|discriminate]. injection E as <-.
  rewrite Ep. cbn [wd set_wd note]. rewrite L, <- Ep.
  set (s3 := note (Started (lid l)) (note (Seen (lid l) Ready) (set_wd (wd s) s))).
  destruct (writes s3 (params l) (action l) (out l) c Hi F) as (w & D & W & NN). rewrite D. cbn [bind snd].
  rewrite status_leaf_pure by exact Q. unfold pure, pure_copy. rewrite K. cbn [wd set_wd].
  unfold Spec.Decider.not_needed in NN. rewrite NN. cbn. unfold after. rewrite K. eexists. split; [reflexivity|]. cbn. rewrite W.
  split; [apply lookup_set_eq|]. intros q Hq. rewrite lookup_set. destruct (eqb_spec q (out l)); [contradiction|]. reflexivity.
Qed.
(** Otherwise a copy changes no file. *)
Theorem C57_copy_idle : forall l s st s1 s' st', lkind l = Copy -> sched s = nil -> params l <> nil -> status_leaf l s = Ok (st, s1) -> st <> Ready ->
  build_leaf l s = Ok (st', s') -> files (wd s') = files (wd s) /\ st' = st.
Proof.
  intros l s st s1 s' st' K Q Hp H N B. unfold Builders.build_leaf in B. rewrite K, H in B. cbn [bind fst snd] in B.
  assert (B' : status_leaf l s1 = Ok (st', s')) by (destruct st; try exact B; contradiction). clear B.
  assert (X : wd s1 = wd s /\ sched s1 = nil).
  { rewrite status_leaf_pure in H by auto. unfold pure, pure_copy, after in H. rewrite K in H. unbind H as [x w] E. cbn [fst snd] in H.
    injection H as -> <-. cbn. split; auto. unbind E as [y w'] E'. cbn [fst snd] in E.
    assert (w' = wd s) as ->.
    { assert (Hi : inputs_of (params l) (action l) <> nil) by (destruct (params l); [contradiction|discriminate]).
      destruct (needed_spec digest hexdigest encode bytes_str (wd s) _ (out l) Hi) as [N'|(N' & _)]; congruence. }
    destruct (negb y || _); [congruence|]. destruct (forallb _ _); congruence. }
  destruct X as [X1 X2]. rewrite status_leaf_pure in B' by auto. rewrite status_leaf_pure in H by auto.
  unfold pure, pure_copy, after in *. rewrite K in *. rewrite X1 in B'.
  unbind H as [x w] E. cbn [fst snd] in H. rewrite E in B'. cbn [bind fst snd] in B'. injection B' as <- <-. injection H as -> <-. cbn in *. now subst w.
Qed.

(** A copy of a file onto itself is done, and changes no file. *)
Theorem C57_copy_self : forall l s st s', lkind l = Copy -> sched s = nil -> (exists r, params l = IPath (out l) :: r) ->
  build_leaf l s = Ok (st, s') -> st = Done /\ files (wd s') = files (wd s).
Proof.
  intros l s st s' K Q (r & Ep) B.
  assert (H : forall t, sched t = nil -> wd t = wd s -> forall x t', status_leaf l t = Ok (x, t') -> x = Done /\ wd t' = wd s /\ sched t' = nil).
  { intros t Qt Wt x t' H. rewrite status_leaf_pure in H by auto. unfold pure, pure_copy, after in H. rewrite K in H.
    unbind H as [y w] E. cbn [fst snd] in H. injection H as -> <-. unbind E as [z w'] E'. cbn [fst snd] in E.
    assert (X : first_path (params l) = Some (out l)) by (rewrite Ep; reflexivity).
    rewrite X, eqb_refl, orb_true_r in E. injection E as <- <-.
    assert (Hi : inputs_of (params l) (action l) <> nil) by (rewrite Ep; discriminate).
    destruct (needed_spec digest hexdigest encode bytes_str (wd t) _ (out l) Hi) as [N'|(N' & _)];
      (rewrite N' in E'; injection E' as <- <-; cbn; auto). }
  unfold Builders.build_leaf in B. rewrite K in B. unbind B as [x s1] E. destruct (H _ Q eq_refl _ _ E) as (-> & W & Q1). cbn [fst snd] in B.
  destruct (H _ Q1 W _ _ B) as (-> & W2 & _). now rewrite W2.
Qed.

(** Saving writes the text to the output, leaves all other files as they are, and
    is done then. *)
Theorem C57_save : forall l s t, lkind l = Save -> sched s = nil ->
  (exists a b, params l = a ++ IText t :: b /\ forall x, In x a -> match x with IText _ => False | _ => True end) ->
  (forall p, In (IPath p) (params l) -> exists c, lookup p (files (wd s)) = Some c) ->
  exists s', build_leaf l s = Ok (Done, s') /\ lookup (out l) (files (wd s')) = Some (encode t) /\
    forall q, q <> out l -> lookup q (files (wd s')) = lookup q (files (wd s)).
Proof.
  intros l s t K Q (a & b & Ep & Ha) F. unfold Builders.build_leaf. rewrite K.
  assert (Ef : exists r, filter (fun i => match i with IText _ => true | _ => false end) (params l) = IText t :: r).
  { rewrite Ep, filter_app. assert (X : filter (fun i => match i with IText _ => true | _ => false end) a = nil).
    { clear -Ha. induction a as [|x a IH]; auto. cbn. pose proof (Ha x (or_introl eq_refl)). destruct x; try contradiction; apply IH; intros; apply Ha; now right. }
    rewrite X. cbn. eauto. }
  destruct Ef as [r Ef]. rewrite Ef.
  assert (Hi : inputs_of (params l) (action l) <> nil) by (rewrite Ep; destruct a; discriminate).
  assert (Ff : forallb (exists_in (wd s)) (params l) = true).
  { rewrite forallb_forall. intros [p| |] Hx; auto. cbn. apply has_lookup. auto. }
  set (s3 := note (Started (lid l)) s).
  destruct (writes s3 (params l) (action l) (out l) (encode t) Hi Ff) as (w & D & W & NN). rewrite D. cbn [bind snd].
  rewrite status_leaf_pure by exact Q. unfold pure, pure_base. rewrite K.
  assert (M : miss l (set_wd w s3) = false).
  { unfold miss, missing_parameters. destruct (mem _ _); auto. destruct (params l) as [|x ps] eqn:Epp; [destruct a; discriminate|]. rewrite <- Epp in *.
    assert (Z : forallb (exists_in (wd (set_wd w s3))) (params l) = true).
    { rewrite forallb_forall in Ff. rewrite forallb_forall. intros [p| |] Hx; auto. cbn. rewrite W. specialize (Ff _ Hx). cbn in Ff.
      apply has_lookup in Ff. apply has_lookup. cbn. rewrite lookup_set. destruct (eqb p (out l)); eauto. }
    rewrite Z. reflexivity. }
  rewrite M. cbn [wd set_wd]. unfold Spec.Decider.not_needed in NN. rewrite NN. cbn [bind fst snd negb].
  destruct (after_same l (set_wd w s3)) as (A1 & _). eexists. split; [reflexivity|]. cbn [wd note set_wd]. rewrite W.
  split; [apply lookup_set_eq|]. intros q Hq. rewrite lookup_set. destruct (eqb_spec q (out l)); [contradiction|]. reflexivity.
Qed.
End Props.

(** A sequential builder with a text that is saved and a parallel builder with two
    copies of the saved file; it is polled until it is done. *)
Definition ex_save := {| lid := 1; lkind := Save; active := true; params := [IText (lit "text")]; action := lit "save"; out := of_str (lit "t") |}.
Definition ex_copy n p := {| lid := n; lkind := Copy; active := true; params := [IPath (of_str (lit "t"))]; action := lit "copy"; out := of_str p |}.
Definition ex_comp p := {| parallel := p; clear_done := true; cparams := nil; caction := lit "build"; cout := of_str (lit "e") |}.
Definition ex_tree := Comp (ex_comp false) [Leaf ex_save; Comp (ex_comp true) [Leaf (ex_copy 2 (lit "u")); Leaf (ex_copy 3 (lit "v"))]].
Definition ex_start := {| wd := {| files := nil; db := nil |}; futures := nil; checked := nil; sched := [[]; [EWrite (of_str (lit "z")) (lit "0")]]; trace := nil |}.
Definition i (x : str) := x.
Example C31_ex : NoDup (ids ex_tree) /\ length (leaves ex_tree) = 3 /\ length (flatten ex_tree) = 5 /\
  settled i i i i ex_tree {| wd := wd ex_start; futures := nil; checked := nil; sched := nil; trace := nil |}.
Proof.
  split; [repeat constructor; cbn; intuition discriminate|]. split; [reflexivity|]. split; [reflexivity|]. split; [reflexivity|].
  intros l [<-|[<-|[<-|[]]]] st s1 H; vm_compute in H; injection H as <- <-; reflexivity.
Qed.
Example C32_ex : exists s', polled i i i i ex_tree ex_start (Comp (ex_comp false) nil) s' /\ before ex_tree 1 3 /\
  exists t1 t2 t3, trace s' = t1 ++ Started 1 :: t2 ++ Started 3 :: t3.
Proof.
  remember (build_complete i i i i 9 (ex_comp false) [Leaf ex_save; Comp (ex_comp true) [Leaf (ex_copy 2 (lit "u")); Leaf (ex_copy 3 (lit "v"))]] ex_start) as r eqn:E.
  vm_compute in E. match type of E with _ = Ok (_, _, ?s) => exists s end. split; [|split].
  - eapply (polled_complete i i i i _ _ _ _ _ 9); [apply polled_none|]. vm_compute. reflexivity.
  - apply (before_here (ex_comp false) nil (Leaf ex_save) nil _ nil); [reflexivity|now left|right; now left].
  - cbn [trace]. match goal with |- exists t1 t2 t3, ?l = _ =>
      let rec go l acc k := match l with
        | Started 1 :: ?r => exists acc; k r
        | ?e :: ?r => go r (acc ++ [e]) k end in
      let rec go2 l acc := match l with
        | Started 3 :: ?r => exists acc, r; reflexivity
        | ?e :: ?r => go2 r (acc ++ [e]) end in
      go l (@nil entry) ltac:(fun r => go2 r (@nil entry)) end.
Qed.
(** The text of the example is saved, and one of the copies is ready then. *)
Definition ex_quiet f := {| wd := {| files := f; db := nil |}; futures := nil; checked := nil; sched := nil; trace := nil |}.
Example C57_ex : lkind ex_save = Save /\ params ex_save = nil ++ IText (lit "text") :: nil /\
  (exists s1, status_leaf i i i i (ex_copy 2 (lit "u")) (ex_quiet [(of_str (lit "t"), lit "text")]) = Ok (Ready, s1)) /\
  (exists s1, status_leaf i i i i (ex_copy 2 (lit "u")) (ex_quiet nil) = Ok (MissingParameters, s1)).
Proof. split; [reflexivity|]. split; [reflexivity|]. split; eexists; vm_compute; reflexivity. Qed.
(** A command that is built, runs, ends, and is polled again. *)
Definition ex_cmd := {| lid := 7; lkind := Command; active := true; params := [IPath (of_str (lit "t"))]; action := lit "run"; out := of_str (lit "o") |}.
Example C58_ex : exists s1 s2 s3,
  build i i i i (Leaf ex_cmd) {| wd := {| files := [(of_str (lit "t"), lit "1")]; db := nil |}; futures := nil; checked := nil;
    sched := [[]; []; [EWrite (of_str (lit "o")) (lit "2"); EFuture 7 (Exit 0)]]; trace := nil |} = Ok (Building, Leaf ex_cmd, s1) /\
  build i i i i (Leaf ex_cmd) s1 = Ok (Done, Leaf ex_cmd, s2) /\ status_of i i i i (Leaf ex_cmd) s2 = Ok (Done, s3) /\
  trace s3 = [Seen 7 Ready; Started 7; Seen 7 Building; Seen 7 Done; Seen 7 Done; Seen 7 Done].
Proof.
  eexists _, _, _. split; [vm_compute; reflexivity|]. split; [vm_compute; reflexivity|]. split; [vm_compute; reflexivity|]. reflexivity.
Qed.

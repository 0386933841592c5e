(** Property C84: linking or copying files *)
From Coq Require Import List Bool Arith NArith Lia.
From Verif.Base Require Import Str StrFacts Dict DictFacts Result.
From Verif.Model Require Import LinkCopy.
From Verif.Spec Require Import LinkCopy.
Import ListNotations.

Section LinkCopy.
Variable dir_ok : str -> bool.
Variable device : str -> nat.
Variable can_link : nat -> bool.
Variable fresh : fs -> nat -> nat.
Variable cut : str -> list str.
Hypothesis cut_all : forall x, concat (cut x) = x.
Hypothesis fresh_ok : is_fresh fresh.
Notation run src dst s := (link_or_copy dir_ok device can_link fresh cut src dst s).

Lemma write_states i done ps s t : In t (write i done ps s) ->
  f_names t = f_names s /\ (forall j, j <> i -> lookup j (f_data t) = lookup j (f_data s)) /\
  exists p, lookup i (f_data t) = Some (done ++ p) /\ prefix p (concat ps).
Proof.
  revert done s. induction ps as [|p ps IH]; intros done s I; cbn [write] in I; [destruct I|]. destruct I as [<-|I].
  - cbn [f_names f_data]. split; [reflexivity|]. split; [intros j N; now apply lookup_set_neq|]. exists p. rewrite lookup_set_eq. split; [reflexivity|].
    exists (concat ps). reflexivity.
  - destruct (IH _ _ I) as (E1 & E2 & x & E3 & q & E4). cbn [f_names f_data] in *. split; [exact E1|]. split.
    + intros j N. rewrite E2 by exact N. now apply lookup_set_neq.
    + exists (p ++ x). rewrite E3, app_assoc. split; [reflexivity|]. exists q. cbn [concat]. now rewrite <- app_assoc, E4.
Qed.
Lemma write_last i done ps s : lookup i (f_data s) = Some done -> lookup i (f_data (last (write i done ps s) s)) = Some (done ++ concat ps).
Proof.
  revert done s. induction ps as [|p ps IH]; intros done s E; cbn [write concat]; [cbn [last]; now rewrite app_nil_r|].
  set (s' := {| f_names := f_names s; f_data := set i (done ++ p) (f_data s) |}).
  assert (E' : lookup i (f_data s') = Some (done ++ p)) by (cbn [s' f_data]; apply lookup_set_eq).
  specialize (IH (done ++ p) s' E'). rewrite <- app_assoc in IH. rewrite <- IH.
  destruct (write i (done ++ p) ps s') as [|t l] eqn:W; [reflexivity|]. cbn [last]. clear.
  revert t. induction l as [|u l IH]; intros t; [reflexivity|]. cbn [last] in *. apply IH.
Qed.
Lemma content_remove dst s n : wf (f_names s) -> content n (os_remove dst s) = if eqb n dst then None else content n s.
Proof.
  intros W. unfold content, os_remove. cbn [f_names f_data]. rewrite lookup_remove by exact W. now destruct (eqb n dst).
Qed.

(** * The states of a copy *)
Lemma copy_states src dst s ss t x : lookup dst (f_names s) = None -> src <> dst -> content src s = Some x ->
  copyfile dir_ok device fresh cut src dst s = Ok ss -> In t ss ->
  (forall n, n <> dst -> content n t = content n s) /\ exists p, content dst t = Some p /\ prefix p x.
Proof.
  intros D N C E I. unfold copyfile in E. unfold content in C. destruct (lookup src (f_names s)) as [i|] eqn:L; [|discriminate].
  rewrite C in E. destruct (dir_ok dst); [|discriminate].
  set (j := (device dst, fresh s (device dst))) in E. set (s0 := {| f_names := set dst j (f_names s); f_data := set j nil (f_data s) |}) in E.
  assert (ss = s0 :: write j nil (cut x) s0) as -> by congruence. clear E.
  assert (F : f_names t = f_names s0 /\ (forall k, k <> j -> lookup k (f_data t) = lookup k (f_data s0)) /\
    exists p, lookup j (f_data t) = Some p /\ prefix p x).
  { destruct I as [<-|I].
    - split; [reflexivity|]. split; [reflexivity|]. exists nil. cbn [s0 f_data]. rewrite lookup_set_eq. split; [reflexivity|]. now exists x.
    - destruct (write_states _ _ _ _ _ I) as (E1 & E2 & p & E3 & P). rewrite cut_all in P. eauto 10. }
  destruct F as (E1 & E2 & p & E3 & P). split.
  - intros n Nn. unfold content. rewrite E1. cbn [s0 f_names]. rewrite lookup_set_neq by exact Nn.
    destruct (lookup n (f_names s)) as [k|] eqn:Lk; [|reflexivity].
    assert (K : k <> j) by (intros ->; now apply (fresh_ok s (device dst) n)).
    rewrite E2 by exact K. cbn [s0 f_data]. now apply lookup_set_neq.
  - exists p. split; [|exact P]. unfold content. rewrite E1. cbn [s0 f_names]. now rewrite lookup_set_eq.
Qed.
Lemma last_cons {A} (a d : A) l : last (a :: l) d = last l a.
Proof. revert a. induction l as [|b l IH]; intros a; [reflexivity|]. cbn [last] in *. destruct l; [reflexivity|]. apply (IH a). Qed.
Lemma copy_last src dst s ss x : lookup dst (f_names s) = None -> src <> dst -> content src s = Some x ->
  copyfile dir_ok device fresh cut src dst s = Ok ss -> content dst (last ss s) = Some x.
Proof.
  intros D N C E. pose proof E as E0. unfold copyfile in E. pose proof C as C0. unfold content in C. destruct (lookup src (f_names s)) as [i|] eqn:L; [|discriminate].
  rewrite C in E. destruct (dir_ok dst); [|discriminate].
  set (j := (device dst, fresh s (device dst))) in E. set (s0 := {| f_names := set dst j (f_names s); f_data := set j nil (f_data s) |}) in E.
  assert (ss = s0 :: write j nil (cut x) s0) as -> by congruence. clear E E0.
  rewrite last_cons. assert (E : lookup j (f_data s0) = Some nil) by (cbn [s0 f_data]; apply lookup_set_eq).
  pose proof (write_last j nil (cut x) s0 E) as F. rewrite cut_all in F. cbn [app] in F.
  assert (G : f_names (last (write j nil (cut x) s0) s0) = f_names s0).
  { destruct (write j nil (cut x) s0) as [|t l] eqn:W; [reflexivity|]. apply (write_states j nil (cut x) s0). rewrite W.
    rewrite last_cons. clear. revert t. induction l as [|u l IH]; intros t; [now left|]. rewrite last_cons. right. apply IH. }
  unfold content. rewrite G. cbn [s0 f_names]. now rewrite lookup_set_eq.
Qed.

(** * The states of all *)
Lemma states src dst s t : sound s -> In t (fst (run src dst s)) -> src <> dst /\
  (forall n, n <> dst -> content n t = content n s) /\
  (content dst t = content dst s \/ content dst t = None \/ exists p x, content src s = Some x /\ content dst t = Some p /\ prefix p x).
Proof.
  intros [W V] I. unfold link_or_copy in I. destruct (st_ino src s) as [a|] eqn:A; [|destruct I].
  unfold st_ino in A. destruct (lookup src (f_names s)) as [[da ia]|] eqn:L; [|discriminate]. cbn [option_map snd] in A.
  assert (ia = a) as -> by congruence.
  destruct (lookup (da, a) (f_data s)) as [x|] eqn:X; [|now contradict X; apply (V src)].
  assert (C : content src s = Some x) by (unfold content; now rewrite L).
  set (ex := match st_ino dst s with Some _ => true | None => false end) in I.
  set (di := negb (eqb (Some a) (st_ino dst s))) in I. cbv zeta in I.
  destruct (ex && negb di) eqn:Same; [destruct I|].
  assert (N : src <> dst).
  { intros ->. unfold ex, di, st_ino in Same. rewrite L in Same. cbn [option_map snd] in Same. rewrite eqb_refl in Same. discriminate. }
  split; [exact N|]. set (s1 := if ex && di then os_remove dst s else s) in I.
  assert (S1 : (forall n, n <> dst -> content n s1 = content n s) /\ content dst s1 = None /\ lookup dst (f_names s1) = None /\ lookup src (f_names s1) = Some (da, a)).
  { unfold s1. destruct (ex && di) eqn:E.
    - split; [|split; [|split]].
      + intros n Nn. rewrite content_remove by exact W. destruct (eqb_spec n dst); [contradiction|reflexivity].
      + rewrite content_remove by exact W. now rewrite eqb_refl.
      + cbn [os_remove f_names]. rewrite lookup_remove by exact W. now rewrite eqb_refl.
      + cbn [os_remove f_names]. rewrite lookup_remove by exact W. destruct (eqb_spec src dst); [contradiction|exact L].
    - assert (Ex : ex = false) by (destruct ex, di; cbn in *; congruence).
      assert (Ld : lookup dst (f_names s) = None). { unfold ex, st_ino in Ex. now destruct (lookup dst (f_names s)). }
      split; [auto|]. split; [unfold content; now rewrite Ld|]. auto. }
  destruct S1 as (K1 & K2 & K3 & K4).
  assert (C1 : content src s1 = Some x) by (rewrite K1; auto).
  destruct (os_link dir_ok device can_link src dst s1) as [s2|] eqn:E.
  - unfold os_link in E. rewrite K4 in E. destruct (dir_ok dst && eqb da (device dst) && can_link da && negb (has dst (f_names s1))); [|discriminate].
    cbn [fst] in I. destruct I as [<-|[<-|[]]].
    + split; [exact K1|]. right. now left.
    + assert (s2 = {| f_names := set dst (da, a) (f_names s1); f_data := f_data s1 |}) as -> by congruence. split.
      * intros n Nn. rewrite <- K1 by exact Nn. unfold content. cbn [f_names f_data]. now rewrite lookup_set_neq.
      * right. right. exists x, x. split; [exact C|]. split; [|exists nil; apply app_nil_r].
        rewrite <- C1. unfold content. cbn [f_names f_data]. now rewrite lookup_set_eq, K4.
  - destruct (copyfile dir_ok device fresh cut src dst s1) as [ss|e] eqn:F; cbn [fst] in I.
    + destruct I as [<-|I]; [split; [exact K1|]; right; now left|].
      destruct (copy_states src dst s1 ss t x K3 N C1 F I) as (G1 & p & G2 & G3). split.
      * intros n Nn. rewrite G1 by exact Nn. now apply K1.
      * right. right. eauto.
    + destruct I as [<-|[]]. split; [exact K1|]. right. now left.
Qed.

(** Whenever the program stops, the source and all other files are as before, and
    the destination is as before, absent, or has the beginning of the source. *)
Theorem C84_crash : forall src dst s t, sound s -> In t (fst (run src dst s)) ->
  content src t = content src s /\ (forall n, n <> dst -> content n t = content n s) /\
  (content dst t = content dst s \/ content dst t = None \/ exists p x, content src s = Some x /\ content dst t = Some p /\ prefix p x).
Proof. intros src dst s t S I. destruct (states src dst s t S I) as (N & H & K). split; [now apply H|]. auto. Qed.

(** At the end the destination has the contents of the source, and the source and all other
    files are as before. *)
Theorem C84_done : forall src dst s, sound s -> no_clash src dst s -> snd (run src dst s) = Ok tt ->
  content dst (final s (run src dst s)) = content src s /\ content src s <> None /\
  forall n, n <> dst -> content n (final s (run src dst s)) = content n s.
Proof.
  intros src dst s S NC R.
  assert (O : forall n, n <> dst -> content n (final s (run src dst s)) = content n s).
  { intros n Nn. unfold final. destruct (fst (run src dst s)) as [|t l] eqn:F; [reflexivity|].
    assert (I : In (last (t :: l) s) (fst (run src dst s))).
    { rewrite F, last_cons. clear. revert t. induction l as [|u l IH]; intros t; [now left|]. rewrite last_cons. right. apply IH. }
    now apply (states src dst s _ S I). }
  assert (Q : content dst (final s (run src dst s)) = content src s /\ content src s <> None); [|destruct Q; auto].
  clear O. destruct S as [W V]. unfold final, link_or_copy in *. destruct (st_ino src s) as [a|] eqn:A; [|discriminate].
  unfold st_ino in A. destruct (lookup src (f_names s)) as [[da ia]|] eqn:L; [|discriminate]. cbn [option_map snd] in A.
  assert (ia = a) as -> by congruence.
  destruct (lookup (da, a) (f_data s)) as [x|] eqn:X; [|now contradict X; apply (V src)].
  assert (C : content src s = Some x) by (unfold content; now rewrite L). rewrite C. split; [|discriminate].
  set (ex := match st_ino dst s with Some _ => true | None => false end) in *.
  set (di := negb (eqb (Some a) (st_ino dst s))) in *. cbv zeta in *.
  destruct (ex && negb di) eqn:Same; cbn [fst last].
  { unfold ex, di, st_ino in Same. destruct (lookup dst (f_names s)) as [[db b]|] eqn:Ld; cbn [option_map snd] in Same; [|discriminate].
    rewrite negb_involutive in Same. apply eqb_eq in Same. assert (b = a) as -> by congruence.
    unfold content. rewrite Ld, <- (NC da db a L Ld). exact X. }
  assert (N : src <> dst).
  { intros ->. unfold ex, di, st_ino in Same. rewrite L in Same. cbn [option_map snd] in Same. rewrite eqb_refl in Same. discriminate. }
  set (s1 := if ex && di then os_remove dst s else s) in *.
  assert (S1 : f_data s1 = f_data s /\ lookup dst (f_names s1) = None /\ lookup src (f_names s1) = Some (da, a)).
  { unfold s1. destruct (ex && di) eqn:E.
    - split; [reflexivity|]. cbn [os_remove f_names]. rewrite !lookup_remove by exact W. rewrite eqb_refl. split; [reflexivity|].
      destruct (eqb_spec src dst); [contradiction|exact L].
    - assert (Ex : ex = false) by (destruct ex, di; cbn in *; congruence). split; [reflexivity|]. split; [|exact L].
      unfold ex, st_ino in Ex. now destruct (lookup dst (f_names s)). }
  destruct S1 as (K1 & K3 & K4).
  assert (C1 : content src s1 = Some x) by (unfold content; now rewrite K4, K1).
  destruct (os_link dir_ok device can_link src dst s1) as [s2|] eqn:E.
  - unfold os_link in E. rewrite K4 in E. destruct (dir_ok dst && eqb da (device dst) && can_link da && negb (has dst (f_names s1))); [|discriminate].
    cbn [fst last]. assert (s2 = {| f_names := set dst (da, a) (f_names s1); f_data := f_data s1 |}) as -> by congruence.
    unfold content. cbn [f_names f_data]. now rewrite lookup_set_eq, K1.
  - destruct (copyfile dir_ok device fresh cut src dst s1) as [ss|e] eqn:F; cbn [fst snd] in *; [|discriminate].
    rewrite last_cons. now apply (copy_last src dst s1 ss x).
Qed.

(** It succeeds exactly if the source exists and, unless the destination is already
    the same file, the directory of the destination exists; otherwise the error is
    FileNotFoundError, and without the source nothing is changed. *)
Theorem C84_errors : forall src dst s,
  (snd (run src dst s) = Ok tt \/ snd (run src dst s) = Raise FileNotFoundError) /\
  (lookup src (f_names s) = None -> run src dst s = (nil, Raise FileNotFoundError)) /\
  (wf (f_names s) -> lookup src (f_names s) <> None -> dir_ok dst = true -> snd (run src dst s) = Ok tt) /\
  (wf (f_names s) -> lookup dst (f_names s) = None -> dir_ok dst = false -> snd (run src dst s) = Raise FileNotFoundError).
Proof.
  intros src dst s. unfold link_or_copy, st_ino. destruct (lookup src (f_names s)) as [[da a]|] eqn:L; cbn [option_map snd].
  2: { split; [now right|]. split; [reflexivity|]. split; [intros _ C; now contradict C|reflexivity]. }
  set (ex := match option_map snd (lookup dst (f_names s)) with Some _ => true | None => false end).
  set (di := negb (eqb (Some a) (option_map snd (lookup dst (f_names s))))). cbv zeta.
  destruct (ex && negb di) eqn:Same; cbn [snd].
  { split; [now left|]. split; [discriminate|]. split; [reflexivity|]. intros _ D _. unfold ex in Same. rewrite D in Same. discriminate. }
  set (s1 := if ex && di then os_remove dst s else s).
  assert (N : src <> dst).
  { intros ->. unfold ex, di in Same. rewrite L in Same. cbn [option_map snd] in Same. rewrite eqb_refl in Same. discriminate. }
  assert (K4 : wf (f_names s) -> lookup src (f_names s1) = Some (da, a)).
  { intros W. unfold s1. destruct (ex && di); [|exact L]. cbn [os_remove f_names]. rewrite lookup_remove by exact W.
    destruct (eqb_spec src dst); [contradiction|exact L]. }
  split; [|split; [discriminate|split]].
  - destruct (os_link dir_ok device can_link src dst s1); [now left|]. unfold copyfile. destruct (lookup src (f_names s1)); [|now right].
    destruct (dir_ok dst); [now left|now right].
  - intros W _ D. destruct (os_link dir_ok device can_link src dst s1); [reflexivity|]. unfold copyfile. rewrite (K4 W), D. reflexivity.
  - intros W _ D. unfold os_link. rewrite (K4 W), D. cbn [andb]. unfold copyfile. now rewrite (K4 W), D.
Qed.
End LinkCopy.

(** * Findings *)
Definition one_piece (x : str) : list str := [x].
Definition new_ino (s : fs) (d : nat) : nat := S (fold_right (fun e m => Nat.max (snd (snd e)) m) 0 (f_names s)).
Lemma new_ino_fresh : is_fresh new_ino.
Proof.
  intros s d n L. apply lookup_In in L.
  assert (G : forall l e, In e l -> snd (snd e) <= fold_right (fun (e : str * inode) m => Nat.max (snd (snd e)) m) 0 l).
  { induction l as [|f l IH]; intros e; [intros []|]. intros [E|J]; cbn [fold_right]; [rewrite E; apply Nat.le_max_l|]. specialize (IH e J). etransitivity; [exact IH|]. apply Nat.le_max_r. }
  specialize (G _ _ L). unfold new_ino in G. cbn [snd] in G. revert G. apply Nat.nle_succ_diag_l.
Qed.
Definition two (d1 i1 d2 i2 : nat) : fs :=
  {| f_names := [(lit "a", (d1, i1)); (lit "b", (d2, i2))]; f_data := [((d1, i1), lit "new"); ((d2, i2), lit "old")] |}.
Lemma two_sound d1 i1 d2 i2 : sound (two d1 i1 d2 i2).
Proof.
  split.
  - unfold wf, keys. cbn [two f_names map fst]. constructor; [|constructor; [intros []|constructor]]. intros [C|[]]. discriminate.
  - intros n i L. cbn [two f_names lookup] in L. cbn [two f_data lookup]. destruct (eqb n (lit "a")); [|destruct (eqb n (lit "b")); [|discriminate]].
    + assert (i = (d1, i1)) as -> by congruence. rewrite eqb_refl. discriminate.
    + assert (E : i = (d2, i2)) by congruence. destruct (eqb i (d1, i1)); [discriminate|]. rewrite E, eqb_refl. discriminate.
Qed.

(** Files on different devices are taken for the same if their inodes have the
    same number, and then the destination keeps its contents. *)
Theorem C84_device_refuted : ~ (forall dir_ok device can_link fresh cut src dst s,
  is_fresh fresh -> (forall x, concat (cut x) = x) -> sound s ->
  snd (link_or_copy dir_ok device can_link fresh cut src dst s) = Ok tt ->
  content dst (final s (link_or_copy dir_ok device can_link fresh cut src dst s)) = content src s).
Proof.
  intros H. specialize (H (fun _ => true) (fun n => if eqb n (lit "a") then 1 else 2) (fun _ => true) new_ino one_piece (lit "a") (lit "b") (two 1 5 2 5) new_ino_fresh).
  assert (C : content (lit "b") (final (two 1 5 2 5) (link_or_copy (fun _ => true) (fun n => if eqb n (lit "a") then 1 else 2) (fun _ => true) new_ino one_piece (lit "a") (lit "b") (two 1 5 2 5)))
    = content (lit "a") (two 1 5 2 5)).
  { apply H; [intros x; unfold one_piece; cbn [concat]; apply app_nil_r|apply two_sound|vm_compute; reflexivity]. }
  vm_compute in C. discriminate.
Qed.

(** After a link, a program that writes the destination in place changes the
    source. *)
Theorem C84_shared_refuted : ~ (forall dir_ok device can_link fresh cut src dst s x,
  is_fresh fresh -> (forall x, concat (cut x) = x) -> sound s -> no_clash src dst s -> src <> dst ->
  snd (link_or_copy dir_ok device can_link fresh cut src dst s) = Ok tt ->
  content src (overwrite dst x (final s (link_or_copy dir_ok device can_link fresh cut src dst s))) = content src s).
Proof.
  intros H. specialize (H (fun _ => true) (fun n => 1) (fun _ => true) new_ino one_piece (lit "a") (lit "b") (two 1 5 1 6) (lit "changed") new_ino_fresh).
  assert (C : content (lit "a") (overwrite (lit "b") (lit "changed") (final (two 1 5 1 6) (link_or_copy (fun _ => true) (fun n => 1) (fun _ => true) new_ino one_piece (lit "a") (lit "b") (two 1 5 1 6))))
    = content (lit "a") (two 1 5 1 6)).
  { apply H; [intros x; unfold one_piece; cbn [concat]; apply app_nil_r|apply two_sound| |discriminate|vm_compute; reflexivity].
    intros d d' i L1 L2. vm_compute in L1, L2. congruence. }
  vm_compute in C. discriminate.
Qed.

Example C84_ex : let run c := link_or_copy (fun _ => true) (fun _ => 1) (fun _ => c) new_ino one_piece (lit "a") (lit "b") (two 1 5 1 6) in
  sound (two 1 5 1 6) /\ no_clash (lit "a") (lit "b") (two 1 5 1 6) /\ is_fresh new_ino /\
  map (content (lit "b")) (fst (run true)) = [None; Some (lit "new")] /\
  map (content (lit "b")) (fst (run false)) = [None; Some nil; Some (lit "new")] /\
  snd (run true) = Ok tt /\ snd (run false) = Ok tt /\
  snd (link_or_copy (fun _ => false) (fun _ => 1) (fun _ => true) new_ino one_piece (lit "a") (lit "c") (two 1 5 1 6)) = Raise FileNotFoundError.
Proof.
  cbv zeta. split; [apply two_sound|]. split. { intros d d' i L1 L2. vm_compute in L1, L2. congruence. }
  split; [exact new_ino_fresh|]. split; [vm_compute; reflexivity|]. split; [vm_compute; reflexivity|]. split; [vm_compute; reflexivity|]. split; vm_compute; reflexivity.
Qed.

(** C67: the target builders of a tree of documents *)
From Coq Require Import List Bool Arith NArith Lia.
From Verif.Base Require Import Str StrFacts Dict DictFacts Result.
From Verif.Model Require Import TargetBuilders.
From Verif.Spec Require Import TargetBuilders.
Import ListNotations.

Lemma asks_with d e : asks d e <-> exists t, In t (d_targets d) /\ e = with_period t.
Proof.
  unfold asks, with_period. split; intros (t & I & H); exists t; (split; [exact I|]).
  - destruct H as [[-> ->]|[-> ->]]; reflexivity.
  - destruct (startswith t (lit ".")) eqn:E; [left | right]; now split.
Qed.
Lemma asks_iff d e : is_target d e = true <-> asks d e.
Proof.
  rewrite asks_with. unfold is_target. rewrite mem_In, in_map_iff. split; intros (t & A & B); exists t; (split; [|]); congruence.
Qed.

Lemma look_put d e b s i e' :
  lookup e' (reg (put d e b s) i) = if N.eqb i (d_id d) && eqb e' e then Some b else lookup e' (reg s i).
Proof.
  unfold put. cbn [reg]. destruct (N.eqb i (d_id d)); [|reflexivity]. cbn [andb]. apply lookup_set.
Qed.
Lemma look_put_eq d e b s : builder (put d e b s) d e = Some b.
Proof. unfold builder. now rewrite look_put, N.eqb_refl, eqb_refl. Qed.
Lemma look_put_other d e b s i e' : (i, e') <> (d_id d, e) -> lookup e' (reg (put d e b s) i) = lookup e' (reg s i).
Proof.
  intro N. rewrite look_put. destruct (N.eqb_spec i (d_id d)) as [->|]; [|reflexivity].
  destruct (eqb_spec e' e) as [->|]; [now destruct N | reflexivity].
Qed.

Lemma NoDup_app_intro {A} (l m : list A) :
  NoDup l -> NoDup m -> (forall x, In x l -> In x m -> False) -> NoDup (l ++ m).
Proof.
  induction 1 as [|x l N _ IH]; intros M D; [exact M|]. cbn [app]. constructor.
  - intros [I|I]%in_app_or; [now apply N | apply (D x); [now left | exact I]].
  - apply IH; [exact M | intros y Hy; apply D; now right].
Qed.

Section Tree.
Variables (has_latex : bool) (root : doc) (rest : list doc).
Let docs := root :: rest.
Hypothesis Hids : NoDup (map d_id docs).

Lemma same_id d d' : In d docs -> In d' docs -> d_id d = d_id d' -> d = d'.
Proof.
  intros Hd Hd' E. revert Hids. induction docs as [|x l IH]; [destruct Hd|]. cbn [map]. intro N.
  inversion N as [|? ? A B]; subst. destruct Hd as [->|Hd], Hd' as [->|Hd']; [reflexivity| | |now apply IH].
  - destruct A. rewrite E. now apply in_map.
  - destruct A. rewrite <- E. now apply in_map.
Qed.

Record core (s : st) : Prop := {
  c_wf : forall d, In d docs -> wf (reg s (d_id d));
  c_sound : forall d e b, In d docs -> builder s d e = Some b ->
    (wanted root d e /\ known has_latex e) /\ ext b = e /\ owner b = d_id d /\ cached b = negb (is_target d e) /\ uid b < next s;
  c_uid : forall d e b d' e' b', In d docs -> In d' docs -> builder s d e = Some b -> builder s d' e' = Some b' ->
    uid b = uid b' -> d = d' /\ e = e';
  c_pdf : forall d b, In d docs -> builder s d (lit ".pdf") = Some b ->
    exists t, builder s d (lit ".tex") = Some t /\ parts b = [uid t];
  c_single : forall d e b, In d docs -> builder s d e = Some b -> e <> lit ".pdf" -> e <> lit ".epub" -> parts b = nil
}.
Definition epubs (s : st) : Prop :=
  forall d b, In d docs -> builder s d (lit ".epub") = Some b ->
  Forall2 (fun x u => exists y, builder s x (lit ".xhtml") = Some y /\ u = uid y) docs (parts b).
Definition more (s s' : st) : Prop := forall d e b, In d docs -> builder s d e = Some b -> builder s' d e = Some b.

Lemma more_refl s : more s s. Proof. now intros d e b _ H. Qed.
Lemma more_trans a b c : more a b -> more b c -> more a c.
Proof. intros H K d e x I L. now apply K, H. Qed.
Lemma all_more s s' e l us :
  more s s' -> (forall x, In x l -> In x docs) ->
  Forall2 (fun x u => exists y, builder s x e = Some y /\ u = uid y) l us ->
  Forall2 (fun x u => exists y, builder s' x e = Some y /\ u = uid y) l us.
Proof.
  intros M A H. induction H as [|x u l us (y & Ly & ->) _ IH]; constructor.
  - exists y. split; [apply M; [apply A; now left | exact Ly] | reflexivity].
  - apply IH. intros z Hz. apply A. now right.
Qed.
Lemma all_more_eq s s' e l us :
  (forall x, In x l -> builder s' x e = builder s x e) ->
  Forall2 (fun x u => exists y, builder s x e = Some y /\ u = uid y) l us ->
  Forall2 (fun x u => exists y, builder s' x e = Some y /\ u = uid y) l us.
Proof.
  intros A H. induction H as [|x u l us (y & Ly & ->) _ IH]; constructor.
  - exists y. split; [rewrite A by (now left); exact Ly | reflexivity].
  - apply IH. intros z Hz. apply A. now right.
Qed.
Lemma epubs_more s s' : more s s' -> (forall d, In d docs -> builder s' d (lit ".epub") = builder s d (lit ".epub")) -> epubs s -> epubs s'.
Proof.
  intros M E H d b I L. rewrite (E d I) in L. apply (all_more s s'); auto. now apply (H d b I L).
Qed.

Lemma builder_make d e ps s d' e' :
  In d docs -> In d' docs ->
  builder (snd (make d e ps s)) d' e' = if N.eqb (d_id d') (d_id d) && eqb e' e then Some (fst (make d e ps s)) else builder s d' e'.
Proof. intros _ _. unfold builder, make. cbn [fst snd]. rewrite look_put. reflexivity. Qed.

Lemma make_more d e ps s : In d docs -> builder s d e = None -> more s (snd (make d e ps s)).
Proof.
  intros Hd N d' e' b Hd' L. rewrite builder_make by assumption.
  destruct (N.eqb_spec (d_id d') (d_id d)) as [E|]; [|exact L]. destruct (eqb_spec e' e) as [->|]; [|exact L].
  rewrite (same_id d' d Hd' Hd E) in L. rewrite N in L. discriminate L.
Qed.

Lemma make_core d e ps s :
  core s -> In d docs -> builder s d e = None -> wanted root d e -> known has_latex e ->
  (e = lit ".pdf" -> exists t, builder s d (lit ".tex") = Some t /\ ps = [uid t]) ->
  (e <> lit ".pdf" -> e <> lit ".epub" -> ps = nil) ->
  core (snd (make d e ps s)).
Proof.
  intros C Hd N W Kn HP HS. pose proof (make_more d e ps s Hd N) as M. constructor.
  - intros x Hx. unfold make, put, fresh. cbn [snd reg]. destruct (N.eqb (d_id x) (d_id d)); [apply wf_set|]; now apply (c_wf s C).
  - intros x e' b Hx L. rewrite builder_make in L by assumption. change (next (snd (make d e ps s))) with (S (next s)).
    destruct (N.eqb_spec (d_id x) (d_id d)) as [E|]; cbn [andb] in L.
    + destruct (eqb_spec e' e) as [->|].
      * injection L as <-. rewrite (same_id x d Hx Hd E). unfold make. cbn [fst uid ext owner cached]. repeat split; auto.
      * destruct (c_sound s C x e' b Hx L) as ((A & A0) & B & D & F & G). repeat split; auto.
    + destruct (c_sound s C x e' b Hx L) as ((A & A0) & B & D & F & G). repeat split; auto.
  - assert (K : forall x e' b, In x docs -> builder (snd (make d e ps s)) x e' = Some b ->
                (x = d /\ e' = e /\ uid b = next s) \/ (builder s x e' = Some b /\ uid b < next s)).
    { intros x e' b Hx L. rewrite builder_make in L by assumption.
      destruct (N.eqb_spec (d_id x) (d_id d)) as [E|]; cbn [andb] in L.
      - destruct (eqb_spec e' e) as [->|].
        + left. injection L as <-. split; [now apply same_id | now split].
        + right. split; [exact L|]. now destruct (c_sound s C x e' b Hx L) as (_ & _ & _ & _ & G).
      - right. split; [exact L|]. now destruct (c_sound s C x e' b Hx L) as (_ & _ & _ & _ & G). }
    intros x e1 b x' e2 b' Hx Hx' L L' U.
    destruct (K x e1 b Hx L) as [(-> & -> & A)|[A B]], (K x' e2 b' Hx' L') as [(-> & -> & A')|[A' B']]; try lia; [now split|].
    exact (c_uid s C x e1 b x' e2 b' Hx Hx' A A' U).
  - intros x b Hx L. rewrite builder_make in L by assumption.
    destruct (N.eqb_spec (d_id x) (d_id d)) as [E|]; cbn [andb] in L.
    + destruct (eqb_spec (lit ".pdf") e) as [<-|].
      * injection L as <-. destruct (HP eq_refl) as (t & T & ->). exists t. rewrite (same_id x d Hx Hd E).
        split; [now apply M | reflexivity].
      * destruct (c_pdf s C x b Hx L) as (t & T & P). exists t. split; [now apply M | exact P].
    + destruct (c_pdf s C x b Hx L) as (t & T & P). exists t. split; [now apply M | exact P].
  - intros x e' b Hx L N1 N2. rewrite builder_make in L by assumption.
    destruct (N.eqb_spec (d_id x) (d_id d)) as [E|]; cbn [andb] in L.
    + destruct (eqb_spec e' e) as [->|].
      * injection L as <-. now apply HS.
      * exact (c_single s C x e' b Hx L N1 N2).
    + exact (c_single s C x e' b Hx L N1 N2).
Qed.

(** ** Finding or making one *)
Lemma find_core d e s :
  core s -> In d docs -> wanted root d e -> known has_latex e -> e <> lit ".pdf" -> e <> lit ".epub" ->
  let r := find_or_make d e s in
  core (snd r) /\ more s (snd r) /\ builder (snd r) d e = Some (fst r) /\
  (forall x e', In x docs -> e' <> e -> builder (snd r) x e' = builder s x e').
Proof.
  intros C Hd W Kn N1 N2. unfold find_or_make. destruct (builder s d e) as [b|] eqn:E; cbn [fst snd].
  - split; [exact C|]. split; [apply more_refl|]. split; [exact E | reflexivity].
  - split; [apply make_core; auto; now intros ->|]. split; [now apply make_more|]. split.
    + rewrite builder_make by assumption. now rewrite N.eqb_refl, eqb_refl.
    + intros x e' Hx Ne. rewrite builder_make by assumption. destruct (eqb_spec e' e) as [->|]; [now destruct Ne|].
      now rewrite andb_false_r.
Qed.
Lemma find_all_core e l s :
  core s -> (forall d, In d l -> In d docs) -> (forall d, In d l -> wanted root d e) -> known has_latex e -> e <> lit ".pdf" -> e <> lit ".epub" ->
  let r := find_or_make_all l e s in
  core (snd r) /\ more s (snd r) /\
  Forall2 (fun x u => exists y, builder (snd r) x e = Some y /\ u = uid y) l (fst r) /\
  (forall x e', In x docs -> e' <> e -> builder (snd r) x e' = builder s x e').
Proof.
  revert s. induction l as [|d l IH]; intros s C Hl W Kn N1 N2; cbn [find_or_make_all].
  - cbn [fst snd]. split; [exact C|]. split; [apply more_refl|]. split; [constructor | reflexivity].
  - destruct (find_core d e s C (Hl d (or_introl eq_refl)) (W d (or_introl eq_refl)) Kn N1 N2) as (C1 & M1 & B1 & O1).
    destruct (find_or_make d e s) as [b s1]. cbn [fst snd] in C1, M1, B1, O1.
    destruct (IH s1 C1) as (C2 & M2 & F2 & O2); [intros x Hx; apply Hl; now right | intros x Hx; apply W; now right | assumption | assumption | assumption |].
    destruct (find_or_make_all l e s1) as [bs s2]. cbn [fst snd] in *.
    split; [exact C2|]. split; [now apply (more_trans s s1 s2)|]. split.
    + constructor; [|exact F2]. exists b. split; [|reflexivity]. apply M2; [apply Hl; now left | exact B1].
    + intros x e' Hx Ne. now rewrite O2, O1.
Qed.

(** ** Putting a builder again *)
Lemma put_again d e b b' s :
  core s -> In d docs -> builder s d e = Some b -> uid b' = uid b -> ext b' = ext b -> owner b' = owner b -> cached b' = cached b ->
  e <> lit ".pdf" -> e <> lit ".tex" -> (e <> lit ".epub" -> parts b' = parts b) ->
  core (put d e b' s).
Proof.
  intros C Hd L EU EE EO EC NP NT PP.
  assert (K : forall x e' c, In x docs -> builder (put d e b' s) x e' = Some c ->
              exists c', builder s x e' = Some c' /\ uid c = uid c' /\ ext c = ext c' /\ owner c = owner c' /\ cached c = cached c' /\
              (e' <> lit ".epub" -> parts c = parts c') /\ ((x, e') <> (d, e) -> c = c')).
  { intros x e' c Hx E. unfold builder in *. rewrite look_put in E.
    destruct (N.eqb_spec (d_id x) (d_id d)) as [I|]; cbn [andb] in E.
    - destruct (eqb_spec e' e) as [->|Ne].
      + injection E as <-. rewrite (same_id x d Hx Hd I). exists b. repeat split; auto. intro A. now destruct A.
      + exists c. repeat split; auto.
    - exists c. repeat split; auto. }
  constructor.
  - intros x Hx. unfold put. cbn [reg]. destruct (N.eqb (d_id x) (d_id d)); [apply wf_set|]; now apply (c_wf s C).
  - intros x e' c Hx E. destruct (K x e' c Hx E) as (c' & L' & U & X & O & CC & _ & _).
    destruct (c_sound s C x e' c' Hx L') as ((A & A0) & B & D & F & G). rewrite U, X, O, CC. repeat split; auto.
  - intros x e1 c x' e2 c' Hx Hx' E E' U.
    destruct (K x e1 c Hx E) as (k & L1 & U1 & _). destruct (K x' e2 c' Hx' E') as (k' & L2 & U2 & _).
    apply (c_uid s C x e1 k x' e2 k' Hx Hx' L1 L2). now rewrite <- U1, <- U2.
  - intros x c Hx E. destruct (K x _ c Hx E) as (c' & L' & _ & _ & _ & _ & _ & Q).
    rewrite (Q (fun A => NP (eq_sym (f_equal snd A)))). destruct (c_pdf s C x c' Hx L') as (t & T & P).
    exists t. split; [|exact P]. unfold builder. rewrite look_put_other; [exact T|].
    intro A. injection A as _ A. now apply NT.
  - intros x e' c Hx E N1 N2. destruct (K x e' c Hx E) as (c' & L' & _ & _ & _ & _ & P & _).
    rewrite (P N2). exact (c_single s C x e' c' Hx L' N1 N2).
Qed.

Lemma put_same d e b s x e' : In d docs -> In x docs -> builder s d e = Some b -> builder (put d e b s) x e' = builder s x e'.
Proof.
  intros Hd Hx L. unfold builder in *. rewrite look_put. destruct (N.eqb_spec (d_id x) (d_id d)) as [I|]; [|reflexivity].
  destruct (eqb_spec e' e) as [->|]; [|reflexivity]. rewrite I, L. reflexivity.
Qed.
(** The same object is put under the same key once more (receivers.py:83) *)
Lemma put_same_core d e b s : core s -> In d docs -> builder s d e = Some b -> core (put d e b s).
Proof.
  intros C Hd L. constructor.
  - intros x Hx. unfold put. cbn [reg]. destruct (N.eqb (d_id x) (d_id d)); [apply wf_set|]; now apply (c_wf s C).
  - intros x e' c Hx. rewrite (put_same d e b s x e' Hd Hx L). apply (c_sound s C x e' c Hx).
  - intros x e1 c x' e2 c' Hx Hx'. rewrite (put_same d e b s x e1 Hd Hx L), (put_same d e b s x' e2 Hd Hx' L).
    now apply (c_uid s C).
  - intros x c Hx. rewrite !(put_same d e b s x _ Hd Hx L). now apply (c_pdf s C).
  - intros x e' c Hx. rewrite (put_same d e b s x e' Hd Hx L). now apply (c_single s C).
Qed.

(** ** One target *)
Lemma find_cls_kinds e k :
  find_cls e = Some k ->
  match k with Pdf => e = lit ".pdf" | Epub => e = lit ".epub"
             | Single => e <> lit ".pdf" /\ e <> lit ".epub" /\ In e [lit ".html"; lit ".xhtml"; lit ".tex"; lit ".txt"] end.
Proof.
  unfold find_cls. destruct (eqb_spec e (lit ".pdf")) as [->|N1]; [intros [= <-]; reflexivity|].
  destruct (eqb_spec e (lit ".epub")) as [->|N2]; [intros [= <-]; reflexivity|].
  destruct (mem e _) eqn:M; [|discriminate]. intros [= <-]. split; [exact N1|]. split; [exact N2|]. now apply mem_In.
Qed.

Lemma known_cls e : known has_latex e <-> exists k, find_cls e = Some k /\ (k = Pdf -> has_latex = true).
Proof.
  split.
  - intros [H|[-> H]].
    + cbn [In] in H. destruct H as [<-|[<-|[<-|[<-|[<-|[]]]]]]; eexists; (split; [reflexivity | discriminate]).
    + exists Pdf. split; [reflexivity | auto].
  - intros (k & F & H). apply find_cls_kinds in F. destruct k.
    + destruct F as (_ & _ & F). left. cbn [In] in F |- *. tauto.
    + right. split; [exact F | now apply H].
    + left. rewrite F. cbn [In]. tauto.
Qed.
Lemma known_tex : known has_latex (lit ".tex"). Proof. left. right. right. now left. Qed.
Lemma known_xhtml : known has_latex (lit ".xhtml"). Proof. left. right. now left. Qed.
Lemma root_in : In root docs. Proof. now left. Qed.

Lemma add_target_ok d t s s' :
  core s -> epubs s -> In d docs -> In t (d_targets d) -> add_target has_latex docs root d t s = Ok s' ->
  known has_latex (with_period t) /\ core s' /\ epubs s' /\ more s s' /\
  (built_for root d (with_period t) -> builder s' d (with_period t) <> None).
Proof.
  intros C E Hd Ht H. unfold add_target in H.
  assert (A : asks d (with_period t)) by (apply asks_with; now exists t).
  set (e := with_period t) in *. clearbody e.
  destruct (builder s d e) as [b|] eqn:L.
  { injection H as <-. split; [|split; [exact C|split; [exact E|split; [apply more_refl|]]]].
    - destruct (c_sound s C d e b Hd L) as ((_ & K) & _). exact K.
    - intros _ N. rewrite L in N. discriminate N. }
  destruct (find_cls e) as [k|] eqn:F; [|discriminate H].
  assert (K : (k = Pdf -> has_latex = true) -> known has_latex e) by (intro Q; apply known_cls; now exists k).
  destruct (negb (only_root k) || N.eqb (d_id d) (d_id root)) eqn:O.
  2:{ injection H as <-. apply orb_false_iff in O as [O1 O2]. destruct k; try discriminate O1.
      apply find_cls_kinds in F. subst e.
      split; [apply K; discriminate|]. split; [exact C|]. split; [exact E|]. split; [apply more_refl|].
      intros [_ B]. apply N.eqb_neq in O2. now destruct (O2 (B eq_refl)). }
  destruct k; apply find_cls_kinds in F.
  - (* one file *)
    destruct F as (N1 & N2 & _). cbn [bind] in H. injection H as <-.
    assert (W : wanted root d e) by (left; split; [exact A | intro X; now destruct N2]).
    pose proof (make_core d e nil s C Hd L W (K ltac:(discriminate)) (fun X => False_ind _ (N1 X)) (fun _ _ => eq_refl)) as C1.
    pose proof (make_more d e nil s Hd L) as M1.
    assert (B1 : builder (snd (make d e nil s)) d e = Some (fst (make d e nil s)))
      by (rewrite builder_make by assumption; now rewrite N.eqb_refl, eqb_refl).
    set (r := make d e nil s) in *.
    split; [apply K; discriminate|]. split; [now apply put_same_core|].
    assert (M2 : more s (put d e (fst r) (snd r))).
    { intros x e' c Hx Lx. rewrite (put_same d e (fst r) (snd r) x e' Hd Hx B1). now apply M1. }
    split; [|split; [exact M2|]].
    + apply (epubs_more s); [exact M2| |exact E]. intros x Hx. rewrite (put_same d e (fst r) (snd r) x _ Hd Hx B1).
      unfold r. rewrite builder_make by assumption. destruct (eqb_spec (lit ".epub") e) as [<-|]; [now destruct N2|].
      now rewrite andb_false_r.
    + intros _. rewrite look_put_eq. discriminate.
  - (* pdf *)
    subst e. unfold make_pdf in H. 
    assert (BF : built_for root d (lit ".pdf")) by (split; [exact A | discriminate]).
    assert (WT : wanted root d (lit ".tex")) by (right; left; now split).
    destruct (find_core d (lit ".tex") s C Hd WT known_tex ltac:(discriminate) ltac:(discriminate)) as (C1 & M1 & B1 & O1).
    destruct (find_or_make d (lit ".tex") s) as [x s1]. cbn [fst snd] in C1, M1, B1, O1.
    destruct has_latex eqn:HL; [|discriminate H]. cbn [bind] in H. injection H as <-.
    assert (L1 : builder s1 d (lit ".pdf") = None) by (rewrite O1 by (assumption || discriminate); exact L).
    pose proof (make_core d (lit ".pdf") [uid x] s1 C1 Hd L1 (or_introl BF)) as C2.
    rewrite HL in C2. specialize (C2 (K (fun _ => eq_refl)) (fun _ => ex_intro _ x (conj B1 eq_refl)) (fun X => False_ind _ (X eq_refl))).
    pose proof (make_more d (lit ".pdf") [uid x] s1 Hd L1) as M2.
    assert (B2 : builder (snd (make d (lit ".pdf") [uid x] s1)) d (lit ".pdf") = Some (fst (make d (lit ".pdf") [uid x] s1)))
      by (rewrite builder_make by assumption; now rewrite N.eqb_refl, eqb_refl).
    set (r := make d (lit ".pdf") [uid x] s1) in *.
    split; [now apply K|]. split; [now apply put_same_core|].
    assert (M3 : more s (put d (lit ".pdf") (fst r) (snd r))).
    { intros y e' c Hy Ly. rewrite (put_same d (lit ".pdf") (fst r) (snd r) y e' Hd Hy B2). now apply M2, M1. }
    split; [|split; [exact M3|]].
    + apply (epubs_more s); [exact M3| |exact E]. intros y Hy. rewrite (put_same d (lit ".pdf") (fst r) (snd r) y _ Hd Hy B2).
      unfold r. rewrite builder_make by assumption.
      destruct (eqb_spec (lit ".epub") (lit ".pdf")) as [X|_]; [discriminate X|]. rewrite andb_false_r.
      apply O1; [exact Hy | discriminate].
    + intros _. rewrite look_put_eq. discriminate.
  - (* epub *)
    subst e. cbn [only_root negb orb] in O. apply N.eqb_eq in O. pose proof (same_id d root Hd root_in O) as ->.
    assert (BF : built_for root root (lit ".epub")) by (split; [exact A | reflexivity]).
    cbn [bind] in H. unfold make_epub in H.
    pose proof (make_core root (lit ".epub") nil s C root_in L (or_introl BF) (K ltac:(discriminate)) ltac:(discriminate) (fun _ _ => eq_refl)) as C1.
    pose proof (make_more root (lit ".epub") nil s root_in L) as M1.
    pose proof (builder_make root (lit ".epub") nil s root (lit ".epub") root_in root_in) as B1. rewrite N.eqb_refl, eqb_refl in B1. cbn [andb] in B1.
    destruct (make root (lit ".epub") nil s) as [b s1] eqn:EM. cbn [fst snd] in C1, M1, B1.
    destruct (find_all_core (lit ".xhtml") docs s1 C1 (fun x Hx => Hx)) as (C2 & M2 & F2 & O2);
      [intros x Hx; right; right; now split | exact known_xhtml | discriminate | discriminate |].
    destruct (find_or_make_all docs (lit ".xhtml") s1) as [bs s2]. cbn [fst snd] in C2, M2, F2, O2.
    cbn [fst snd] in H. injection H as <-.
    set (b' := mktb (uid b) (ext b) (owner b) (cached b) bs).
    assert (B2 : builder s2 root (lit ".epub") = Some b) by (now apply M2).
    assert (C3 : core (put root (lit ".epub") b' s2)).
    { apply (put_again root (lit ".epub") b b' s2); auto; try discriminate. intro X. now destruct X. }
    assert (B3 : builder (put root (lit ".epub") b' s2) root (lit ".epub") = Some b') by apply look_put_eq.
    set (s3 := put root (lit ".epub") b' s2) in *.
    assert (S3 : forall x e', In x docs -> e' <> lit ".epub" -> builder s3 x e' = builder s2 x e').
    { intros x e' Hx Ne. unfold s3, builder. apply look_put_other. intro X. injection X as _ X. now apply Ne. }
    split; [apply K; discriminate|]. split; [now apply put_same_core|].
    assert (M3 : more s (put root (lit ".epub") b' s3)).
    { intros x e' c Hx Lx. rewrite (put_same root (lit ".epub") b' s3 x e' root_in Hx B3). destruct (eqb_spec e' (lit ".epub")) as [->|Ne].
      - assert (X : d_id x = d_id root).
        { destruct (c_sound s C x _ c Hx Lx) as ((W & _) & _). destruct W as [[_ W]|[[W _]|[W _]]]; try discriminate W. now apply W. }
        rewrite (same_id x root Hx root_in X) in Lx. rewrite L in Lx. discriminate Lx.
      - rewrite S3 by assumption. now apply M2, M1. }
    split; [|split; [exact M3|]].
    + intros x c Hx Lx. rewrite (put_same root (lit ".epub") b' s3 x _ root_in Hx B3) in Lx.
      assert (X : d_id x = d_id root).
      { destruct (c_sound s3 C3 x _ c Hx Lx) as ((W & _) & _). destruct W as [[_ W]|[[W _]|[W _]]]; try discriminate W. now apply W. }
      rewrite (same_id x root Hx root_in X) in Lx. rewrite B3 in Lx. injection Lx as <-. unfold b'. cbn [parts].
      apply (all_more_eq s2); [|exact F2]. intros y Hy. rewrite (put_same root (lit ".epub") b' s3 y _ root_in Hy B3).
      apply S3; [exact Hy | discriminate].
    + intros _. rewrite look_put_eq. discriminate.
Qed.
Lemma add_target_fails d t s x :
  core s -> In d docs -> add_target has_latex docs root d t s = Raise x -> ~ known has_latex (with_period t) /\ x = BuildError.
Proof.
  intros C Hd H. unfold add_target in H. set (e := with_period t) in *. clearbody e.
  destruct (builder s d e) as [b|] eqn:L; [discriminate H|].
  destruct (find_cls e) as [k|] eqn:F.
  - destruct (negb (only_root k) || N.eqb (d_id d) (d_id root)); [|discriminate H].
    destruct k; cbn [bind] in H; try discriminate H.
    unfold make_pdf in H. destruct (find_or_make d (lit ".tex") s) as [y s1]. destruct has_latex eqn:HL; [discriminate H|].
    injection H as <-. split; [|reflexivity]. intros K. rewrite <- HL in K. apply known_cls in K as (k & F' & K).
    rewrite F in F'. injection F' as <-. rewrite HL in K. discriminate (K eq_refl).
  - injection H as <-. split; [|reflexivity]. intros K. apply known_cls in K as (k & F' & _). rewrite F in F'. discriminate F'.
Qed.

(** ** All targets *)
Lemma add_targets_ok d ts s s' :
  core s -> epubs s -> In d docs -> (forall t, In t ts -> In t (d_targets d)) -> add_targets has_latex docs root d ts s = Ok s' ->
  core s' /\ epubs s' /\ more s s' /\
  forall t, In t ts -> known has_latex (with_period t) /\ (built_for root d (with_period t) -> builder s' d (with_period t) <> None).
Proof.
  revert s. induction ts as [|t ts IH]; intros s C E Hd Ht H; cbn [add_targets] in H.
  - injection H as <-. split; [exact C|]. split; [exact E|]. split; [apply more_refl | intros t []].
  - destruct (add_target has_latex docs root d t s) as [s1|x] eqn:A; [|discriminate H]. cbn [bind] in H.
    destruct (add_target_ok d t s s1 C E Hd (Ht t (or_introl eq_refl)) A) as (K & C1 & E1 & M1 & B1).
    destruct (IH s1 C1 E1 Hd (fun x Hx => Ht x (or_intror Hx)) H) as (C2 & E2 & M2 & B2).
    split; [exact C2|]. split; [exact E2|]. split; [now apply (more_trans s s1 s')|].
    intros x [<-|Hx]; [|now apply B2]. split; [exact K|]. intros BF N. specialize (B1 BF).
    destruct (builder s1 d (with_period t)) as [b|] eqn:L; [|now apply B1].
    rewrite (M2 d _ b Hd L) in N. discriminate N.
Qed.
Lemma add_targets_fails d ts s x :
  core s -> epubs s -> In d docs -> (forall t, In t ts -> In t (d_targets d)) -> add_targets has_latex docs root d ts s = Raise x ->
  x = BuildError /\ exists t, In t ts /\ ~ known has_latex (with_period t).
Proof.
  revert s. induction ts as [|t ts IH]; intros s C E Hd Ht H; cbn [add_targets] in H; [discriminate H|].
  destruct (add_target has_latex docs root d t s) as [s1|y] eqn:A; cbn [bind] in H.
  - destruct (add_target_ok d t s s1 C E Hd (Ht t (or_introl eq_refl)) A) as (K & C1 & E1 & _ & _).
    destruct (IH s1 C1 E1 Hd (fun z Hz => Ht z (or_intror Hz)) H) as (-> & z & I & N). split; [reflexivity|].
    exists z. split; [now right | exact N].
  - injection H as <-. destruct (add_target_fails d t s y C Hd A) as [N ->]. split; [reflexivity|].
    exists t. split; [now left | exact N].
Qed.
Lemma add_docs_ok l s s' :
  core s -> epubs s -> (forall d, In d l -> In d docs) -> add_docs has_latex docs root l s = Ok s' ->
  core s' /\ epubs s' /\ more s s' /\
  forall d t, In d l -> In t (d_targets d) ->
    known has_latex (with_period t) /\ (built_for root d (with_period t) -> builder s' d (with_period t) <> None).
Proof.
  revert s. induction l as [|d l IH]; intros s C E Hl H; cbn [add_docs] in H.
  - injection H as <-. split; [exact C|]. split; [exact E|]. split; [apply more_refl | intros d t []].
  - destruct (add_targets has_latex docs root d (d_targets d) s) as [s1|x] eqn:A; [|discriminate H]. cbn [bind] in H.
    pose proof (Hl d (or_introl eq_refl)) as Hd.
    destruct (add_targets_ok d (d_targets d) s s1 C E Hd (fun t Ht => Ht) A) as (C1 & E1 & M1 & B1).
    destruct (IH s1 C1 E1 (fun x Hx => Hl x (or_intror Hx)) H) as (C2 & E2 & M2 & B2).
    split; [exact C2|]. split; [exact E2|]. split; [now apply (more_trans s s1 s')|].
    intros x t [<-|Hx] Ht; [|now apply B2]. destruct (B1 t Ht) as [K B]. split; [exact K|]. intros BF N. specialize (B BF).
    destruct (builder s1 d (with_period t)) as [b|] eqn:L; [|now apply B].
    rewrite (M2 d _ b Hd L) in N. discriminate N.
Qed.
Lemma add_docs_fails l s x :
  core s -> epubs s -> (forall d, In d l -> In d docs) -> add_docs has_latex docs root l s = Raise x ->
  x = BuildError /\ exists d t, In d l /\ In t (d_targets d) /\ ~ known has_latex (with_period t).
Proof.
  revert s. induction l as [|d l IH]; intros s C E Hl H; cbn [add_docs] in H; [discriminate H|].
  pose proof (Hl d (or_introl eq_refl)) as Hd.
  destruct (add_targets has_latex docs root d (d_targets d) s) as [s1|y] eqn:A; cbn [bind] in H.
  - destruct (add_targets_ok d (d_targets d) s s1 C E Hd (fun t Ht => Ht) A) as (C1 & E1 & _ & _).
    destruct (IH s1 C1 E1 (fun z Hz => Hl z (or_intror Hz)) H) as (-> & z & t & I & N). split; [reflexivity|].
    exists z, t. split; [now right | exact N].
  - injection H as <-. destruct (add_targets_fails d (d_targets d) s y C E Hd (fun t Ht => Ht) A) as (-> & t & I & N).
    split; [reflexivity|]. exists d, t. split; [now left | now split].
Qed.

Lemma cleared s d : In d docs -> reg (clear docs s) (d_id d) = nil.
Proof. intro H. unfold clear. cbn [reg]. now rewrite (proj2 (mem_In _ _) (in_map d_id _ _ H)). Qed.
Lemma clear_none s d e : In d docs -> builder (clear docs s) d e = None.
Proof. intro H. unfold builder. now rewrite (cleared s d H). Qed.
Lemma clear_core s : core (clear docs s).
Proof.
  constructor.
  - intros d H. rewrite (cleared s d H). apply wf_nil.
  - intros d e b H L. rewrite (clear_none s d e H) in L. discriminate L.
  - intros d e b d' e' b' H _ L. rewrite (clear_none s d e H) in L. discriminate L.
  - intros d b H L. rewrite (clear_none s d _ H) in L. discriminate L.
  - intros d e b H L. rewrite (clear_none s d e H) in L. discriminate L.
Qed.
Lemma clear_epubs s : epubs (clear docs s).
Proof. intros d b H L. rewrite (clear_none s d _ H) in L. discriminate L. Qed.

(** ** The theorems *)
Variables (s s' : st).
Hypothesis Hadd : add_target_builders has_latex root rest s = Ok s'.

Lemma final : core s' /\ epubs s' /\ forall d e, In d docs -> asks d e -> known has_latex e /\ (built_for root d e -> builder s' d e <> None).
Proof.
  destruct (add_docs_ok docs (clear docs s) s' (clear_core s) (clear_epubs s) (fun d Hd => Hd) Hadd) as (C & E & _ & B).
  split; [exact C|]. split; [exact E|]. intros d e Hd A. apply asks_with in A as (t & Ht & ->). now apply B.
Qed.

(** Each document has a builder for each of its targets and for what they need, and no others *)
Theorem C67_wanted d e : In d docs -> ((exists b, builder s' d e = Some b) <-> wanted root d e).
Proof.
  intro Hd. destruct final as (C & E & F). split.
  - intros (b & L). exact (proj1 (proj1 (c_sound s' C d e b Hd L))).
  - intro W. assert (G : forall d e, In d docs -> built_for root d e -> exists b, builder s' d e = Some b).
    { intros x y Hx B. destruct (F x y Hx (proj1 B)) as [_ K]. specialize (K B). destruct (builder s' x y) as [b|]; [now exists b | now destruct K]. }
    destruct W as [B|[[-> B]|[-> B]]]; [now apply G| |].
    + destruct (G d _ Hd B) as (b & L). destruct (c_pdf s' C d b Hd L) as (t & T & _). now exists t.
    + destruct (G root _ root_in B) as (b & L). specialize (E root b root_in L). clear - E Hd.
      induction E as [|x u l us (y & Ly & _) _ IH]; [destruct Hd|]. destruct Hd as [->|Hd]; [now exists y | now apply IH].
Qed.
(** A builder is for its document; what was asked for is written to the output directory, and what is only
    needed for another target to the cache *)
Theorem C67_builder d e b :
  In d docs -> builder s' d e = Some b -> ext b = e /\ owner b = d_id d /\ (cached b = false <-> asks d e).
Proof.
  intros Hd L. destruct final as (C & _ & _). destruct (c_sound s' C d e b Hd L) as (_ & A & B & D & _).
  split; [exact A|]. split; [exact B|]. rewrite D, negb_false_iff. apply asks_iff.
Qed.
(** No builder is shared by documents or targets *)
Theorem C67_unique d e b d' e' b' :
  In d docs -> In d' docs -> builder s' d e = Some b -> builder s' d' e' = Some b' -> uid b = uid b' -> d = d' /\ e = e'.
Proof. destruct final as (C & _ & _). apply (c_uid s' C). Qed.
(** A pdf is made from the tex of the same document *)
Theorem C67_pdf d b :
  In d docs -> builder s' d (lit ".pdf") = Some b -> exists t, builder s' d (lit ".tex") = Some t /\ parts b = [uid t].
Proof. destruct final as (C & _ & _). apply (c_pdf s' C). Qed.
(** An epub is made from the xhtml of all documents, in the order of the tree *)
Theorem C67_epub b :
  builder s' root (lit ".epub") = Some b ->
  Forall2 (fun d u => exists x, builder s' d (lit ".xhtml") = Some x /\ u = uid x) docs (parts b).
Proof. intro L. destruct final as (_ & E & _). exact (E root b root_in L). Qed.
(** All targets that were asked for are known *)
Theorem C67_known d e : In d docs -> asks d e -> known has_latex e.
Proof. intros Hd A. destruct final as (_ & _ & F). exact (proj1 (F d e Hd A)). Qed.

(** The build of the tree has each of these builders once *)
Lemma NoDup_uids (l : list doc) :
  (forall d, In d l -> In d docs) -> NoDup (map d_id l) -> NoDup (map uid (collect l s')).
Proof.
  destruct final as (C & _ & _). intros Hl N. induction l as [|d l IH]; [constructor|].
  cbn [collect flat_map]. rewrite map_app. cbn [map] in N. inversion N as [|? ? N1 N2]; subst.
  assert (D : forall x k b, In x docs -> In (k, b) (reg s' (d_id x)) -> builder s' x k = Some b)
    by (intros x k b Hx I; apply In_lookup; [now apply (c_wf s' C) | exact I]).
  pose proof (Hl d (or_introl eq_refl)) as Hd.
  apply NoDup_app_intro.
  - assert (W := c_wf s' C d Hd). assert (I : forall k b, In (k, b) (reg s' (d_id d)) -> builder s' d k = Some b) by (intros; now apply D).
    unfold wf, keys in W. revert W I. generalize (reg s' (d_id d)). intros r. induction r as [|[k b] r IHr]; intros W I; [constructor|].
    cbn [map fst snd] in *. inversion W as [|? ? W1 W2]; subst. constructor.
    + rewrite map_map, in_map_iff. intros ((k' & b') & U & Ik). cbn [snd] in U. apply W1.
      destruct (c_uid s' C d k' b' d k b Hd Hd (I _ _ (or_intror Ik)) (I _ _ (or_introl eq_refl)) U) as [_ ->].
      apply in_map_iff. exists (k, b'). now split.
    + apply IHr; [exact W2 | intros k' b' Ik; apply I; now right].
  - apply IH; [intros x Hx; apply Hl; now right | exact N2].
  - intros u I1 I2. apply N1.
    apply in_map_iff in I1 as (b & <- & I1). apply in_map_iff in I1 as ((k & b0) & E & I1). cbn [snd] in E. subst b0.
    apply in_map_iff in I2 as (b' & U & I2). unfold collect in I2. apply in_flat_map in I2 as (x & Hx & I2).
    apply in_map_iff in I2 as ((k' & b0) & E & I2). cbn [snd] in E. subst b0.
    pose proof (Hl x (or_intror Hx)) as Hx'.
    destruct (c_uid s' C x k' b' d k b Hx' Hd (D _ _ _ Hx' I2) (D _ _ _ Hd I1) U) as [-> _]. now apply in_map.
Qed.
Theorem C67_collect :
  NoDup (map uid (collect docs s')) /\
  forall b, In b (collect docs s') <-> exists d e, In d docs /\ builder s' d e = Some b.
Proof.
  split; [apply NoDup_uids; [auto | exact Hids]|].
  destruct final as (C & _ & _). intro b. unfold collect. rewrite in_flat_map. split.
  - intros (d & Hd & I). apply in_map_iff in I as ((k & b0) & E & I). cbn [snd] in E. subst b0.
    exists d, k. split; [exact Hd|]. apply In_lookup; [now apply (c_wf s' C) | exact I].
  - intros (d & e & Hd & L). exists d. split; [exact Hd|]. apply lookup_In in L. now apply (in_map snd) in L.
Qed.

(** Files of a target go to the builder of the document for it (the files of a pdf to that for the tex) *)
Theorem C67_add_file_partial d t e :
  In d docs -> (e = t /\ startswith t (lit ".") = true \/ e = lit "." ++ t /\ startswith t (lit ".") = false) ->
  wanted root d e -> e <> lit ".epub" ->
  exists b, builder s' d (if eqb e (lit ".pdf") then lit ".tex" else e) = Some b /\ add_file s' d t = Ok (uid b).
Proof.
  intros Hd T W N. assert (E : with_period t = e) by (unfold with_period; destruct T as [[-> ->]|[-> ->]]; reflexivity).
  apply (C67_wanted d e Hd) in W as (b & L). destruct (C67_builder d e b Hd L) as (X & _ & _).
  destruct final as (C & _ & _).
  destruct (proj1 (c_sound s' C d e b Hd L)) as [_ K]. apply known_cls in K as (k & F & _).
  unfold add_file. rewrite E, L, X, F. apply find_cls_kinds in F. destruct k.
  - destruct F as (N1 & _ & _). destruct (eqb_spec e (lit ".pdf")) as [->|_]; [now destruct N1|]. now exists b.
  - destruct (eqb_spec e (lit ".pdf")) as [_|Q]; [|now destruct Q]. rewrite F in L. destruct (C67_pdf d b Hd L) as (x & Lx & P). rewrite P. now exists x.
  - now destruct N.
Qed.
Theorem C67_add_file_missing d t e :
  In d docs -> (e = t /\ startswith t (lit ".") = true \/ e = lit "." ++ t /\ startswith t (lit ".") = false) ->
  ~ wanted root d e -> add_file s' d t = Raise AssertionError.
Proof.
  intros Hd T W. assert (E : with_period t = e) by (unfold with_period; destruct T as [[-> ->]|[-> ->]]; reflexivity).
  unfold add_file. rewrite E. destruct (builder s' d e) as [b|] eqn:L; [|reflexivity].
  destruct W. apply (C67_wanted d e Hd). now exists b.
Qed.
(** The builders found for a document *)
Theorem C67_find d target b :
  In d docs ->
  (In b (find_builder s' d target) <->
   exists e, builder s' d e = Some b /\ match target with Some t => e = with_period t | None => True end).
Proof.
  intro Hd. destruct final as (C & _ & _). unfold find_builder. destruct target as [t|].
  - destruct (builder s' d (with_period t)) as [c|] eqn:L; split.
    + intros [<-|[]]. now exists (with_period t).
    + intros (e & Le & ->). rewrite L in Le. injection Le as ->. now left.
    + intros [].
    + intros (e & Le & ->). rewrite L in Le. discriminate Le.
  - rewrite in_map_iff. split.
    + intros ((k & c) & E & I). cbn [snd] in E. subst c. exists k. split; [|exact Logic.I].
      apply In_lookup; [now apply (c_wf s' C) | exact I].
    + intros (e & L & _). exists (e, b). split; [reflexivity | now apply lookup_In].
Qed.
End Tree.

(** The update fails only for a target that is not known *)
Theorem C67_error has_latex root rest s x :
  NoDup (map d_id (root :: rest)) -> add_target_builders has_latex root rest s = Raise x ->
  x = BuildError /\ exists d e, In d (root :: rest) /\ asks d e /\ ~ known has_latex e.
Proof.
  intros N H.
  destruct (add_docs_fails has_latex root rest N (root :: rest) (clear (root :: rest) s) x
              (clear_core has_latex root rest s) (clear_epubs root rest s) (fun d Hd => Hd) H) as (-> & d & t & Hd & Ht & K).
  split; [reflexivity|]. exists d, (with_period t). split; [exact Hd|]. split; [apply asks_with; now exists t | exact K].
Qed.

(** ** Findings *)
Definition ex_root : doc := {| d_id := 1; d_targets := [lit "epub"; lit ".pdf"; lit "html"] |}.
Definition ex_sub : doc := {| d_id := 2; d_targets := [lit ".xhtml"; lit ".tex"; lit ".pdf"; lit ".epub"] |}.
Definition ex_s : st := mkst (fun _ => [(lit ".txt", mktb 0 (lit ".txt") 9 true nil)]) 7.
(** A file cannot be added for an epub that is built *)
Theorem C67_epub_files_refuted :
  ~ (forall root rest s s' d e, NoDup (map d_id (root :: rest)) -> add_target_builders true root rest s = Ok s' ->
     In d (root :: rest) -> wanted root d e -> exists u, add_file s' d e = Ok u).
Proof.
  intro H.
  assert (Q : match add_target_builders true ex_root [ex_sub] ex_s with Ok s' => add_file s' ex_root (lit ".epub") | Raise x => Ok 0 end
              = Raise AttributeError) by (vm_compute; reflexivity).
  destruct (add_target_builders true ex_root [ex_sub] ex_s) as [s'|x] eqn:E; [|discriminate Q].
  destruct (H ex_root [ex_sub] ex_s s' ex_root (lit ".epub")) as (u & U).
  - repeat constructor; cbn; intuition discriminate.
  - exact E.
  - now left.
  - left. split; [|reflexivity]. exists (lit "epub"). split; [now left|]. right. now split.
  - rewrite U in Q. discriminate Q.
Qed.
(** An epub that is asked for in a sub-document only is not built, and nothing is reported *)
Theorem C67_epub_sub_refuted :
  ~ (forall root rest s s' d e, NoDup (map d_id (root :: rest)) -> add_target_builders true root rest s = Ok s' ->
     In d (root :: rest) -> asks d e -> exists b, builder s' d e = Some b).
Proof.
  intro H. set (r := {| d_id := 1; d_targets := [lit ".html"] |}).
  assert (Q : match add_target_builders true r [ex_sub] ex_s with Ok s' => builder s' ex_sub (lit ".epub") | Raise x => Some (mktb 0 nil 0 true nil) end
              = None) by (vm_compute; reflexivity).
  destruct (add_target_builders true r [ex_sub] ex_s) as [s'|x] eqn:E; [|discriminate Q].
  destruct (H r [ex_sub] ex_s s' ex_sub (lit ".epub")) as (b & B).
  - repeat constructor; cbn; intuition discriminate.
  - exact E.
  - right. now left.
  - exists (lit ".epub"). split; [cbn; tauto|]. left. now split.
  - rewrite B in Q. discriminate Q.
Qed.

(** ** A case *)
Example C67_ex :
  match add_target_builders true ex_root [ex_sub] ex_s with
  | Ok s' => map (fun b => (uid b, ext b, owner b, cached b, parts b)) (collect [ex_root; ex_sub] s')
  | Raise _ => nil
  end
  = [(7, lit ".epub", 1%N, false, [8; 9]); (8, lit ".xhtml", 1%N, true, []); (10, lit ".tex", 1%N, true, []);
     (11, lit ".pdf", 1%N, false, [10]); (12, lit ".html", 1%N, false, []);
     (9, lit ".xhtml", 2%N, false, []); (13, lit ".tex", 2%N, false, []); (14, lit ".pdf", 2%N, false, [13])].
Proof. vm_compute. reflexivity. Qed.
Example C67_ex_ids : NoDup (map d_id [ex_root; ex_sub]).
Proof. repeat constructor; cbn; intuition discriminate. Qed.
Example C67_ex_error :
  match add_target_builders false ex_root [ex_sub] ex_s with Ok _ => false | Raise x => match x with BuildError => true | _ => false end end = true.
Proof. vm_compute. reflexivity. Qed.

(** Property C33 *)
From Coq Require Import List Bool Arith NArith Lia.
From Verif.Base Require Import Str StrFacts Dict DictFacts Result PurePath.
From Verif.Model Require Import FindBuilder.
From Verif.Spec Require Import FindBuilder.
Import ListNotations.

Lemma converts_dec c i o : {converts i o c} + {~ converts i o c}.
Proof.
  unfold converts. destruct (available c), (act c); try (right; intuition discriminate).
  destruct (eqb_spec (in_ext c) i), (eqb_spec (out_ext c) o); (left; auto; fail) || (right; intuition congruence).
Qed.
Lemma best_unique l i o c c' : best l i o c -> best l i o c' -> c = c'.
Proof.
  intros (l1 & l2 & E & C & H1 & H2) (m1 & m2 & E' & C' & G1 & G2). subst l.
  revert m1 E' H1 G1. induction l1 as [|x l1 IH]; intros m1 E' H1 G1; destruct m1 as [|y m1]; cbn in E'; injection E' as -> E'; auto.
  - assert (In c' l2) by (rewrite E'; apply in_or_app; right; now left). specialize (H2 _ H C'). specialize (G1 y (or_introl eq_refl) C). lia.
  - assert (In c m2) by (rewrite <- E'; apply in_or_app; right; now left). specialize (G2 _ H C). specialize (H1 c' (or_introl eq_refl) C'). lia.
  - apply (IH m1 E'); intros; [apply H1|apply G1]; auto; now right.
Qed.

Lemma best_snoc_other l i o c x : ~ converts i o x -> best (l ++ [x]) i o c <-> best l i o c.
Proof.
  intros N. split.
  - intros (l1 & l2 & E & C & H1 & H2). destruct l2 as [|y l2 _] using rev_ind.
    + apply app_inj_tail in E. destruct E as [-> ->]. contradiction.
    + change (l1 ++ c :: l2 ++ [y]) with (l1 ++ (c :: l2) ++ [y]) in E. rewrite app_assoc in E. apply app_inj_tail in E. destruct E as [-> ->].
      exists l1, l2. split; auto. split; auto. split; auto. intros c' Hc. apply H2. apply in_or_app. now left.
  - intros (l1 & l2 & -> & C & H1 & H2). exists l1, (l2 ++ [x]). split; [now rewrite <- app_assoc|]. split; auto. split; auto.
    intros c' Hc Cc. apply in_app_or in Hc as [Hc|[->|[]]]; auto. contradiction.
Qed.
Lemma add_other d c i o : ~ converts i o c -> lookup (i, o) (add_cls d c) = lookup (i, o) d.
Proof.
  intros N. unfold add_cls. destruct (available c) eqn:A; auto. destruct (act c) eqn:B; auto. cbn [negb orb].
  assert (K : (i, o) <> (in_ext c, out_ext c)). { intros E. apply N. unfold converts. injection E as -> ->. auto. }
  destruct (lookup (in_ext c, out_ext c) d) as [c'|]; [destruct (Nat.ltb _ _); auto|]; apply lookup_set_neq; auto.
Qed.
Lemma add_this d c i o : converts i o c -> lookup (i, o) (add_cls d c) =
  match lookup (i, o) d with Some c' => if Nat.ltb (priority c') (priority c) then Some c else Some c' | None => Some c end.
Proof.
  intros (C1 & C2 & C3 & C4). unfold add_cls. rewrite C1, C2, C3, C4. cbn [negb orb].
  destruct (lookup (i, o) d) as [c'|] eqn:L; [destruct (Nat.ltb _ _); auto|]; apply lookup_set_eq.
Qed.
Lemma available_spec l i o : match lookup (i, o) (available_builders l) with Some c => best l i o c | None => no_converter l i o end.
Proof.
  unfold available_builders. induction l as [|x l IH] using rev_ind; [intros c []|]. rewrite fold_left_app. cbn [fold_left].
  destruct (converts_dec x i o) as [C|C].
  - rewrite add_this by auto. destruct (lookup (i, o) (fold_left add_cls l [])) as [c'|].
    + destruct IH as (l1 & l2 & -> & C' & H1 & H2). destruct (Nat.ltb_spec (priority c') (priority x)) as [P|P].
      * exists (l1 ++ c' :: l2), nil. split; auto. split; auto. split; [|intros c []]. intros c Hc Cc. apply in_app_or in Hc as [Hc|[<-|Hc]]; auto.
        -- specialize (H1 _ Hc Cc). lia.
        -- specialize (H2 _ Hc Cc). lia.
      * exists l1, (l2 ++ [x]). split; [now rewrite <- app_assoc|]. split; auto. split; auto.
        intros c Hc Cc. apply in_app_or in Hc as [Hc|[<-|[]]]; auto.
    + exists l, nil. split; auto. split; auto. split; [|intros c []]. intros c Hc Cc. exfalso. exact (IH c Hc Cc).
  - rewrite add_other by auto. destruct (lookup (i, o) (fold_left add_cls l [])) as [c'|].
    + now apply best_snoc_other.
    + intros c Hc. apply in_app_or in Hc as [Hc|[<-|[]]]; auto.
Qed.
Lemma available_best l i o c : lookup (i, o) (available_builders l) = Some c <-> best l i o c.
Proof.
  pose proof (available_spec l i o) as H. destruct (lookup (i, o) (available_builders l)) as [c'|].
  - split; [intros E; injection E as <-; auto|]. intros B. f_equal. eapply best_unique; eauto.
  - split; [discriminate|]. intros (l1 & l2 & -> & C & _). exfalso. apply (H c); auto. apply in_or_app. right. now left.
Qed.
Lemma available_none l i o : lookup (i, o) (available_builders l) = None <-> no_converter l i o.
Proof.
  pose proof (available_spec l i o) as H. destruct (lookup (i, o) (available_builders l)) as [c'|]; [|split; auto].
  split; [discriminate|]. intros N. destruct H as (l1 & l2 & -> & C & _). exfalso. apply (N c'); auto. apply in_or_app. right. now left.
Qed.
Lemma first_converter_some l i exts c : first_converter (available_builders l) i exts = Some c <->
  exists e1 e e2, exts = e1 ++ e :: e2 /\ best l i (Some e) c /\ forall e', In e' e1 -> no_converter l i (Some e').
Proof.
  induction exts as [|x r IH]; cbn.
  - split; [discriminate|]. intros (e1 & e & e2 & E & _). now destruct e1.
  - destruct (lookup (i, Some x) (available_builders l)) as [c'|] eqn:L.
    + apply available_best in L. split.
      * intros E. injection E as <-. exists nil, x, r. split; auto. split; auto. intros e' [].
      * intros (e1 & e & e2 & E & B & N). f_equal. destruct e1 as [|y e1]; injection E as <- E.
        -- eapply best_unique; eauto.
        -- exfalso. destruct L as (l1 & l2 & -> & C & _). apply (N x (or_introl eq_refl) c'); auto. apply in_or_app. right. now left.
    + apply available_none in L. rewrite IH. split.
      * intros (e1 & e & e2 & -> & B & N). exists (x :: e1), e, e2. split; auto. split; auto. intros e' [<-|He]; auto.
      * intros (e1 & e & e2 & E & B & N). destruct e1 as [|y e1]; injection E as <- E.
        -- exfalso. destruct B as (l1 & l2 & -> & C & _). apply (L c); auto. apply in_or_app. right. now left.
        -- exists e1, e, e2. split; auto. split; auto. intros e' He. apply N. now right.
Qed.

(** With two formats and no target: the class found is the best converter, and
    there is an error exactly when there is none. *)
Theorem C33_best : forall tracked l i o c, find_builder_cls tracked l i o None = Ok c <-> best l i o c.
Proof.
  intros tracked l i o c. unfold find_builder_cls. rewrite <- available_best. destruct (lookup (i, o) (available_builders l)); split; congruence.
Qed.
Theorem C33_none : forall tracked l i o, find_builder_cls tracked l i o None = Raise BuildError <-> no_converter l i o.
Proof.
  intros tracked l i o. unfold find_builder_cls. rewrite <- available_none. destruct (lookup (i, o) (available_builders l)); split; congruence.
Qed.

(** The name of a target, with or without its dot *)
Definition dotted (t u : str) : Prop := (startswith t (lit ".") = true /\ u = t) \/ (startswith t (lit ".") = false /\ u = lit "." ++ t).

(** With a target: when the format can be used as it is, it is copied, ... *)
Theorem C33_copy : forall tracked l i o t u exts c, dotted t u -> lookup u tracked = Some exts -> In i exts ->
  find_builder_cls tracked l (Some i) o (Some t) = Ok c <-> best l (Some (lit ".*")) (Some (lit ".*")) c.
Proof.
  intros tracked l i o t u exts c D L I. unfold find_builder_cls.
  assert (E : (if startswith t (lit ".") then t else lit "." ++ t) = u) by (destruct D as [[-> ->]|[-> ->]]; auto).
  rewrite E, L. assert (X : existsb (fun e => eqb (Some i) (Some e)) exts = true).
  { apply existsb_exists. exists i. split; auto. apply eqb_refl. }
  rewrite X, <- available_best. destruct (lookup _ (available_builders l)); split; congruence.
Qed.
(** ... otherwise the first format of the target that has a converter is taken,
    and its best converter; ... *)
Theorem C33_target : forall tracked l i o t u exts c, dotted t u -> lookup u tracked = Some exts -> (forall x, i = Some x -> ~ In x exts) ->
  find_builder_cls tracked l i o (Some t) = Ok c <->
  exists e1 e e2, exts = e1 ++ e :: e2 /\ best l i (Some e) c /\ forall e', In e' e1 -> no_converter l i (Some e').
Proof.
  intros tracked l i o t u exts c D L I. unfold find_builder_cls.
  assert (E : (if startswith t (lit ".") then t else lit "." ++ t) = u) by (destruct D as [[-> ->]|[-> ->]]; auto).
  rewrite E, L. assert (X : existsb (fun e => eqb i (Some e)) exts = false).
  { destruct (existsb _ exts) eqn:X; auto. apply existsb_exists in X. destruct X as (e & He & Ee). apply eqb_eq in Ee. exfalso. exact (I _ Ee He). }
  rewrite X, <- first_converter_some. destruct (first_converter _ _ _); split; congruence.
Qed.
(** ... and it is an error when no format has one, or the target is unknown. *)
Theorem C33_target_none : forall tracked l i o t u exts, dotted t u -> lookup u tracked = Some exts -> (forall x, i = Some x -> ~ In x exts) ->
  find_builder_cls tracked l i o (Some t) = Raise BuildError <-> forall e, In e exts -> no_converter l i (Some e).
Proof.
  intros tracked l i o t u exts D L I. pose proof (fun c => C33_target tracked l i o t u exts c D L I) as H.
  unfold find_builder_cls in *.
  assert (E : (if startswith t (lit ".") then t else lit "." ++ t) = u) by (destruct D as [[-> ->]|[-> ->]]; auto).
  rewrite E, L in *. assert (X : existsb (fun e => eqb i (Some e)) exts = false).
  { destruct (existsb _ exts) eqn:X; auto. apply existsb_exists in X. destruct X as (e & He & Ee). apply eqb_eq in Ee. exfalso. exact (I _ Ee He). }
  rewrite X in *. clear H E X L I D. split.
  - intros H e He. destruct (first_converter (available_builders l) i exts) eqn:F; [discriminate|]. clear H.
    induction exts as [|x r IH]; [contradiction|]. cbn in F. destruct (lookup (i, Some x) (available_builders l)) eqn:Lx; [discriminate|].
    destruct He as [<-|He]; auto. now apply available_none.
  - intros N. assert (F : first_converter (available_builders l) i exts = None).
    { induction exts as [|x r IH]; auto. cbn. rewrite (proj2 (available_none l i (Some x))) by (apply N; now left). apply IH. intros; apply N; now right. }
    now rewrite F.
Qed.
Theorem C33_unknown : forall tracked l i o t u, dotted t u -> lookup u tracked = None ->
  find_builder_cls tracked l i o (Some t) = Raise BuildError.
Proof.
  intros tracked l i o t u D L. unfold find_builder_cls.
  assert (E : (if startswith t (lit ".") then t else lit "." ++ t) = u) by (destruct D as [[-> ->]|[-> ->]]; auto).
  now rewrite E, L.
Qed.

(** For the targets of the settings: tex prefers pdf to png; html prefers svg to
    png for what cannot be made a css file. *)
Theorem C33_tex : forall l i o c, i <> lit ".pdf" -> i <> lit ".png" ->
  (find_builder_cls tracked_deps l (Some i) o (Some (lit ".tex")) = Ok c <->
   best l (Some i) (Some (lit ".pdf")) c \/ no_converter l (Some i) (Some (lit ".pdf")) /\ best l (Some i) (Some (lit ".png")) c).
Proof.
  intros l i o c N1 N2.
  rewrite (C33_target tracked_deps l (Some i) o (lit ".tex") (lit ".tex") [lit ".pdf"; lit ".png"] c);
    [|left; split; reflexivity|reflexivity|intros x E; injection E as <-; intros [H|[H|[]]]; congruence].
  split.
  - intros (e1 & e & e2 & E & B & H). destruct e1 as [|x [|y e1]]; cbn [app] in E.
    + assert (e = lit ".pdf") as -> by congruence. auto.
    + assert (X : x = lit ".pdf" /\ e = lit ".png") by (split; congruence). destruct X as [-> ->]. right. split; auto. apply H. now left.
    + exfalso. apply (f_equal (@length _)) in E. cbn in E. rewrite app_length in E. cbn in E. lia.
  - intros [B|[N B]].
    + exists nil, (lit ".pdf"), [lit ".png"]. split; auto. split; auto. intros e' [].
    + exists [lit ".pdf"], (lit ".png"), nil. split; auto. split; auto. intros e' [<-|[]]; auto.
Qed.
Theorem C33_html : forall l i o c t, t = lit ".html" \/ t = lit ".xhtml" -> i <> lit ".css" -> i <> lit ".svg" -> i <> lit ".png" ->
  no_converter l (Some i) (Some (lit ".css")) ->
  (find_builder_cls tracked_deps l (Some i) o (Some t) = Ok c <->
   best l (Some i) (Some (lit ".svg")) c \/ no_converter l (Some i) (Some (lit ".svg")) /\ best l (Some i) (Some (lit ".png")) c).
Proof.
  intros l i o c t Ht N0 N1 N2 NC.
  rewrite (C33_target tracked_deps l (Some i) o t t [lit ".css"; lit ".svg"; lit ".png"] c);
    [|left; split; auto; destruct Ht as [-> | ->]; reflexivity|destruct Ht as [-> | ->]; reflexivity|intros x E; injection E as <-; intros [H|[H|[H|[]]]]; congruence].
  split.
  - intros (e1 & e & e2 & E & B & H). destruct e1 as [|x [|y [|z e1]]]; cbn [app] in E.
    + assert (e = lit ".css") as -> by congruence. destruct B as (l1 & l2 & -> & C & _). exfalso. apply (NC c); auto. apply in_or_app. right. now left.
    + assert (e = lit ".svg") as -> by congruence. auto.
    + assert (X : y = lit ".svg" /\ e = lit ".png") by (split; congruence). destruct X as [-> ->]. right. split; auto. apply H. right. now left.
    + exfalso. apply (f_equal (@length _)) in E. cbn in E. rewrite app_length in E. cbn in E. lia.
  - intros [B|[N B]].
    + exists [lit ".css"], (lit ".svg"), [lit ".png"]. split; auto. split; auto. intros e' [<-|[]]; auto.
    + exists [lit ".css"; lit ".svg"], (lit ".png"), nil. split; auto. split; auto. intros e' [<-|[<-|[]]]; auto.
Qed.

(** Finding: with a target the asked format of the output is ignored, also when
    there is a converter for it. *)
Theorem C33_output_refuted :
  ~ (forall l i o t c c', best l (Some i) (Some o) c' -> find_builder_cls tracked_deps l (Some i) (Some o) (Some t) = Ok c -> out_ext c = Some o).
Proof.
  intros H.
  set (c1 := {| cname := lit "Pdf2Svg"; in_ext := Some (lit ".pdf"); out_ext := Some (lit ".svg"); priority := 1; available := true; act := true |}).
  set (c2 := {| cname := lit "Pdf2Png"; in_ext := Some (lit ".pdf"); out_ext := Some (lit ".png"); priority := 1; available := true; act := true |}).
  assert (E : find_builder_cls tracked_deps [c1; c2] (Some (lit ".pdf")) (Some (lit ".png")) (Some (lit "html")) = Ok c1) by (vm_compute; reflexivity).
  assert (B : best [c1; c2] (Some (lit ".pdf")) (Some (lit ".png")) c2).
  { apply (proj1 (available_best _ _ _ _)). vm_compute. reflexivity. }
  specialize (H _ _ _ _ _ _ B E). discriminate.
Qed.

(** All subclasses are considered: [all_subclasses] gives those at all depths. *)
Inductive descends : classes -> cls -> Prop :=
| desc_sub : forall c l t, In t l -> descends (Class c l) (cls_of t)
| desc_deep : forall c l t x, In t l -> descends t x -> descends (Class c l) x.
Theorem C33_all : forall t c, In c (all_subclasses t) <-> descends t c.
Proof.
  fix IH 1. intros [c0 l] c. cbn [all_subclasses]. rewrite in_app_iff, in_map_iff.
  assert (X : In c (flat_map all_subclasses l) <-> exists t, In t l /\ descends t c).
  { induction l as [|t l IHl]; cbn; [split; [intros []|intros (t & [] & _)]|]. rewrite in_app_iff, IHl, (IH t c). split.
    - intros [H|(t' & H1 & H2)]; eauto.
    - intros (t' & [->|H1] & H2); eauto. }
  rewrite X. split.
  - intros [(t & <- & H)|(t & H1 & H2)]; [now constructor|eapply desc_deep; eauto].
  - intros H. inversion H; subst; [left|right]; eauto.
Qed.

(** Two converters of different priority, an inactive one, and the copy class. *)
Example C33_ex :
  let c n i o p a := {| cname := n; in_ext := Some i; out_ext := Some o; priority := p; available := true; act := a |} in
  let l := [c (lit "A") (lit ".pdf") (lit ".svg") 1 true; c (lit "B") (lit ".pdf") (lit ".svg") 5 true; c (lit "C") (lit ".pdf") (lit ".svg") 9 false; c (lit "Copy") (lit ".*") (lit ".*") 1 true] in
  find_builder_cls tracked_deps l (Some (lit ".pdf")) (Some (lit ".svg")) None = Ok (c (lit "B") (lit ".pdf") (lit ".svg") 5 true) /\
  find_builder_cls tracked_deps l (Some (lit ".pdf")) None (Some (lit "html")) = Ok (c (lit "B") (lit ".pdf") (lit ".svg") 5 true) /\
  find_builder_cls tracked_deps l (Some (lit ".png")) None (Some (lit "html")) = Ok (c (lit "Copy") (lit ".*") (lit ".*") 1 true) /\
  dotted (lit "html") (lit ".html").
Proof. cbv zeta. split; [vm_compute; reflexivity|]. split; [vm_compute; reflexivity|]. split; [vm_compute; reflexivity|]. right. split; reflexivity. Qed.

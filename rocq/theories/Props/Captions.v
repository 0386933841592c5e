(** Property C86: the captions of figures and tables inside of each other *)
From Coq Require Import List Bool Arith NArith Lia.
From Verif.Base Require Import Str StrFacts Dict Result.
From Verif.Model Require Import Labels AutoLabels Captions.
From Verif.Spec Require Import Labels AutoLabels Captions.
From Verif.Proof Require Import Labels.
From Verif.Props Require AutoLabels.
Import ListNotations.

(** Induction over tags *)
Definition tag_ind' (P : tag -> Prop) (Hc : forall id text, P (Cap id text))
  (Hn : forall h id content, (forall t, In t content -> P t) -> P (Node h id content)) : forall t, P t :=
  fix go t := match t with
              | Cap id text => Hc id text
              | Node h id content => Hn h id content ((fix all l : forall t, In t l -> P t :=
                  match l with
                  | nil => fun t H => match H with end
                  | x :: r => fun t H => match H with or_introl E => eq_ind x P (go x) t E | or_intror H => all r t H end
                  end) content)
              end.

Lemma within_node a h id content : within a (Node h id content) <-> exists b, In b content /\ part a b.
Proof.
  split.
  - intros W. inversion W; subst; [exists a|exists b]; (split; [assumption|]); [now left|now right].
  - intros (b & B & [->|W]); [now apply within_child|now apply within_deep with b].
Qed.
Lemma within_trans a b c : within a b -> within b c -> within a c.
Proof.
  intros A. revert b A. induction c as [id text|h id content IH] using tag_ind'; intros b A B; [inversion B|].
  apply within_node in B as (x & X & [->|B]); apply within_node; exists x; (split; [exact X|]); right; [exact A|eapply IH; eauto].
Qed.
Lemma kind_same k : kind_of k = label_kind k.
Proof. destruct k; reflexivity. Qed.
Lemma anchors_app a b : anchors (a ++ b) = anchors a ++ anchors b.
Proof. apply flat_map_app. Qed.

Section Captions.
Variable hashtxt : str -> str.
Notation create := (create hashtxt).
Notation transfer := (transfer hashtxt).
Notation load := (Captions.load hashtxt).

Lemma transfer_anchors k l : forall id, snd (transfer k id l) = anchors (fst (transfer k id l)).
Proof.
  induction l as [|c l IH]; intros id; [reflexivity|]. cbn [Captions.transfer create_label]. specialize (IH None).
  destruct (transfer k None l) as [r ls]. cbn [fst snd] in *. unfold anchors. cbn [flat_map cp_id cp_kind app]. now rewrite IH, kind_same.
Qed.
Lemma transfer_texts k l : forall id, map cp_text (fst (transfer k id l)) = map cp_text l.
Proof.
  induction l as [|c l IH]; intros id; [reflexivity|]. cbn [Captions.transfer create_label]. specialize (IH None).
  destruct (transfer k None l) as [r ls]. cbn [fst map cp_text] in *. now rewrite IH.
Qed.
Lemma create_node h id content : create (Node h id content) =
  let captions := concat (map (fun t => fst (create t)) content) in
  let labels := concat (map (fun t => snd (create t)) content) in
  match h with
  | None => (captions, labels)
  | Some k => (fst (transfer k id captions), labels ++ snd (transfer k id captions))
  end.
Proof. cbn [Captions.create]. destruct h as [k|]; [|reflexivity]. cbv zeta. now destruct (transfer k id _). Qed.

(** The captions stay, in order. *)
Theorem C86_captions : forall t, map cp_text (fst (create t)) = map snd (written t).
Proof.
  induction t as [id text|h id content IH] using tag_ind'; [reflexivity|]. rewrite create_node. cbv zeta. cbn [written].
  assert (E : map cp_text (concat (map (fun t => fst (create t)) content)) = map snd (concat (map written content))).
  { induction content as [|t content IHc]; [reflexivity|]. cbn [map concat]. rewrite !map_app, (IH t (or_introl eq_refl)), IHc; [reflexivity|].
    intros x X. apply IH. now right. }
  destruct h as [k|]; cbn [fst]; [rewrite transfer_texts|]; exact E.
Qed.

(** No labels without a captioned figure or table *)
Lemma written_captioned : forall t x, In x (written t) -> part (Cap (fst x) (snd x)) t.
Proof.
  induction t as [id text|h id content IH] using tag_ind'; intros x X.
  - cbn [written In] in X. destruct X as [<-|[]]. now left.
  - cbn [written] in X. apply in_concat in X as (l & L & X). apply in_map_iff in L as (t & <- & T). right. apply within_node. exists t. auto.
Qed.
Lemma create_nil t : written t = nil -> fst (create t) = nil.
Proof. intros E. pose proof (C86_captions t) as H. rewrite E in H. cbn [map] in H. destruct (fst (create t)); [reflexivity|discriminate]. Qed.
Lemma captioned_dec t : is_holder t -> ~ captioned t -> written t = nil.
Proof.
  intros (k & id & content & ->) N. destruct (written (Node (Some k) id content)) as [|x l] eqn:E; [reflexivity|]. exfalso. apply N.
  destruct (written_captioned (Node (Some k) id content) x) as [C|C]; [rewrite E; now left|discriminate|]. now exists (fst x), (snd x).
Qed.
Lemma create_plain t : (forall b, part b t -> is_holder b -> ~ captioned b) ->
  snd (create t) = nil /\ forall c, In c (fst (create t)) -> cp_kind c = None.
Proof.
  induction t as [id text|h id content IH] using tag_ind'; intros H.
  - split; [reflexivity|]. intros c [<-|[]]. reflexivity.
  - assert (I : forall t, In t content -> snd (create t) = nil /\ forall c, In c (fst (create t)) -> cp_kind c = None).
    { intros t T. apply IH; [exact T|]. intros b B. apply H. right. apply within_node. eauto. }
    assert (L : concat (map (fun t => snd (create t)) content) = nil).
    { clear -I. induction content as [|t content IHc]; [reflexivity|]. cbn [map concat]. rewrite (proj1 (I t (or_introl eq_refl))). apply IHc. intros x X. apply I. now right. }
    assert (K : forall c, In c (concat (map (fun t => fst (create t)) content)) -> cp_kind c = None).
    { intros c C. apply in_concat in C as (l & Q & C). apply in_map_iff in Q as (t & <- & T). now apply (I t T). }
    destruct h as [k|]; [|rewrite create_node; cbv zeta; cbn [fst snd]; split; [exact L|exact K]].
    assert (W : written (Node (Some k) id content) = nil).
    { apply captioned_dec; [now exists k, id, content|]. apply H; [now left|now exists k, id, content]. }
    pose proof (create_nil _ W) as F. rewrite F. split; [|intros c []]. rewrite create_node in F |- *. cbv zeta in *. cbn [fst snd] in *. rewrite L.
    destruct (concat (map (fun t => fst (create t)) content)) as [|c l]; [reflexivity|]. cbn [Captions.transfer create_label] in F.
    destruct (transfer k None l). discriminate.
Qed.

(** If no figure or table with a caption is inside of another, the labels are exactly the
    ids and kinds of the captions of figures and tables, in order. *)
Theorem C86_anchors : forall t, unnested t -> snd (create t) = anchors (fst (create t)).
Proof.
  induction t as [id text|h id content IH] using tag_ind'; intros U; [destruct id; reflexivity|].
  rewrite create_node. cbv zeta. destruct h as [k|]; cbn [fst snd].
  - assert (P : forall t, In t content -> snd (create t) = nil).
    { intros t T. apply create_plain. intros b B Hb. apply (U (Node (Some k) id content) b); [now left|now exists k, id, content| |exact Hb].
      apply within_node. eauto. }
    assert (L : concat (map (fun t => snd (create t)) content) = nil).
    { clear -P. induction content as [|t content IHc]; [reflexivity|]. cbn [map concat]. rewrite (P t (or_introl eq_refl)). apply IHc. intros x X. apply P. now right. }
    rewrite L. cbn [app]. apply transfer_anchors.
  - assert (I : forall t, In t content -> snd (create t) = anchors (fst (create t))).
    { intros t T. apply IH; [exact T|]. intros a b A. apply U. right. apply within_node. eauto. }
    clear -I. induction content as [|t content IHc]; [reflexivity|]. cbn [map concat]. rewrite anchors_app, <- (I t (or_introl eq_refl)). f_equal.
    apply IHc. intros x X. apply I. now right.
Qed.
(** Otherwise there may be labels for which there is no caption. *)
Theorem C86_stale_refuted : ~ (forall t i k, In (i, k) (snd (create t)) -> In (i, k) (anchors (fst (create t)))).
Proof.
  intros H. specialize (H (Node (Some Figure) (Some (lit "outer")) [Node (Some Table) (Some (lit "inner")) [Cap None (lit "A caption")]]) (lit "inner") (label_kind Table)).
  cbn in H. destruct H as [H|[]]; [now left|]. discriminate.
Qed.

(** The id of a figure or table is the one of its first caption, which then has no other. *)
Theorem C86_given : forall k i content, captioned (Node (Some k) (Some i) content) ->
  exists c captions labels rest, create (Node (Some k) (Some i) content) = (c :: captions, labels ++ (i, label_kind k) :: rest) /\
    cp_id c = Some i /\ cp_kind c = Some k /\ length rest = length captions.
Proof.
  intros k i content (id & text & W). rewrite create_node. cbv zeta.
  destruct (concat (map (fun t => fst (create t)) content)) as [|c l] eqn:E.
  - exfalso. pose proof (C86_captions (Node None None content)) as T. rewrite create_node in T. cbv zeta in T. cbn [fst] in T. rewrite E in T. cbn [map] in T.
    assert (I : forall t, part (Cap id text) t -> In (id, text) (written t)).
    { clear. induction t as [id' text'|h id' content IH] using tag_ind'; intros [Q|W]; [injection Q as -> ->; now left|inversion W|discriminate|].
      apply within_node in W as (b & B & W). cbn [written]. apply in_concat. exists (written b). split; [now apply in_map|auto]. }
    assert (X : In (id, text) (written (Node None None content))).
    { apply I. right. apply within_node in W. now apply within_node. }
    destruct (written (Node None None content)); [exact X|discriminate].
  - cbn [Captions.transfer create_label caption_id]. assert (N : length (snd (transfer k None l)) = length (fst (transfer k None l))).
    { generalize (@None str). clear. induction l as [|c l IH]; intros o; [reflexivity|]. cbn [Captions.transfer create_label]. specialize (IH None). destruct (transfer k None l). cbn [fst snd length] in *. now rewrite IH. }
    destruct (transfer k None l) as [r ls] eqn:Q. cbn [fst snd] in *. rewrite kind_same. eexists _, _, _, _. split; [reflexivity|]. auto.
Qed.
(** Without ids of figures and tables, captions keep the ids that were given. *)
Lemma transfer_keeps k l (ws : list (option str * str)) : Forall2 (fun w c => forall j, fst w = Some j -> cp_id c = Some j) ws l ->
  Forall2 (fun w c => forall j, fst w = Some j -> cp_id c = Some j) ws (fst (transfer k None l)).
Proof.
  intros F. induction F as [|w c ws l H F IH]; [constructor|]. cbn [Captions.transfer create_label]. destruct (transfer k None l) as [r ls]. cbn [fst] in *.
  constructor; [|exact IH]. intros j J. cbn [cp_id]. unfold caption_id. cbn [c_id]. now rewrite (H j J).
Qed.
Theorem C86_own : forall t, (forall k i content, ~ part (Node (Some k) (Some i) content) t) ->
  Forall2 (fun w c => forall j, fst w = Some j -> cp_id c = Some j) (written t) (fst (create t)).
Proof.
  induction t as [id text|h id content IH] using tag_ind'; intros N.
  - constructor; [|constructor]. intros j J. exact J.
  - assert (F : Forall2 (fun w c => forall j, fst w = Some j -> cp_id c = Some j) (concat (map written content)) (concat (map (fun t => fst (create t)) content))).
    { assert (I : forall t, In t content -> Forall2 (fun w c => forall j, fst w = Some j -> cp_id c = Some j) (written t) (fst (create t))).
      { intros t T. apply IH; [exact T|]. intros k i c P. apply (N k i c). right. apply within_node. eauto. }
      clear -I. induction content as [|t content IHc]; [constructor|]. cbn [map concat]. apply Forall2_app; [apply I; now left|]. apply IHc. intros x X. apply I. now right. }
    rewrite create_node. cbv zeta. cbn [written]. destruct h as [k|]; cbn [fst]; [|exact F].
    destruct id as [i|]; [exfalso; apply (N k i content); now left|]. now apply transfer_keeps.
Qed.
(** With one, the id of the first caption is lost: nothing has it. *)
Theorem C86_own_refuted : ~ (forall t i text, part (Cap (Some i) text) t -> (exists a, part a t /\ is_holder a /\ within (Cap (Some i) text) a) ->
  In i (map fst (snd (create t)))).
Proof.
  intros H. set (c := Cap (Some (lit "b")) (lit "A caption")). set (f := Node (Some Figure) (Some (lit "a")) [c]).
  assert (W : within c f) by (apply within_child; now left).
  specialize (H f (lit "b") (lit "A caption") (or_intror W)). cbn in H. destruct H as [H|[]]; [|discriminate].
  exists f. split; [now left|]. split; [|exact W]. now exists Figure, (Some (lit "a")), [c].
Qed.

(** * Loading *)

(** Without nested ones, a document whose captions have different ids is loaded, and its
    labels are those of the captions. *)
Theorem C86_loads : forall h sep doc t, sep_of sep <> nil -> unnested t ->
  (forall x, In x (values (m_labels (run h))) -> l_doc x <> doc) ->
  (forall i k, In (i, k) (anchors (fst (create t))) -> names_label (sep_of sep) i) -> NoDup (map fst (anchors (fst (create t)))) ->
  exists m, load sep doc t (run h) = Ok m /\
    map (fun l => (l_doc l, l_id l, l_kind l)) (values (m_labels m)) =
    map (fun l => (l_doc l, l_id l, l_kind l)) (values (m_labels (run h))) ++ map (fun ik => (doc, fst ik, Some (snd ik))) (anchors (fst (create t))).
Proof.
  intros h sep doc t Hs U Hf Hn Nd. unfold Captions.load. rewrite (C86_anchors t U).
  destruct (AutoLabels.add_labels_ok sep doc Hs (anchors (fst (create t))) h Hn Nd) as (h' & E & V); [intros x Hx Ed; exfalso; exact (Hf x Hx Ed)|].
  exists (run h'). split; [exact E|exact V].
Qed.

(** Captions with a kind have a label. *)
Lemma labelled : forall t c k, In c (fst (create t)) -> cp_kind c = Some k -> exists i, cp_id c = Some i /\ In i (map fst (snd (create t))).
Proof.
  induction t as [id text|h id content IH] using tag_ind'; intros c k C K.
  - destruct C as [<-|[]]. discriminate.
  - rewrite create_node in *. cbv zeta in *. destruct h as [k'|]; cbn [fst snd] in *.
    + rewrite map_app, transfer_anchors. assert (A : forall l o, In c (fst (transfer k' o l)) -> exists i, cp_id c = Some i /\ In i (map fst (anchors (fst (transfer k' o l))))).
      { clear. induction l as [|x l IHl]; intros o C; [destruct C|]. cbn [Captions.transfer create_label] in *. specialize (IHl None).
        destruct (transfer k' None l) as [r ls]. cbn [fst] in *. destruct C as [<-|C].
        - eexists. split; [reflexivity|]. now left.
        - destruct (IHl C) as (i & E & I). exists i. split; [exact E|]. unfold anchors. cbn [flat_map cp_id cp_kind app map fst]. now right. }
      destruct (A _ _ C) as (i & E & I). exists i. split; [exact E|]. apply in_or_app. now right.
    + apply in_concat in C as (l & L & C). apply in_map_iff in L as (t & <- & T). destruct (IH t T c k C K) as (i & E & I). exists i. split; [exact E|].
      rewrite concat_map, map_map. apply in_concat. eexists. split; [|exact I]. now apply (in_map (fun t => map fst (snd (create t)))).
Qed.
(** Below a figure or table, the captions of another have a kind *)
Lemma kinded : forall t b, part b t -> is_holder b -> captioned b -> exists c k, In c (fst (create t)) /\ cp_kind c = Some k.
Proof.
  induction t as [id text|h id content IH] using tag_ind'; intros b B Hb Cb.
  - destruct B as [->|B]; [destruct Hb as (? & ? & ? & Q); discriminate|inversion B].
  - rewrite create_node. cbv zeta. destruct B as [->|B].
    + destruct Hb as (k & i & c & Q). injection Q as -> -> ->. cbn [fst].
      assert (X : exists x l, concat (map (fun t => fst (create t)) c) = x :: l).
      { destruct (concat (map (fun t => fst (create t)) c)) as [|x l] eqn:E; [|eauto]. exfalso.
        destruct Cb as (o & text & W). assert (G : captioned (Node (Some Figure) (Some nil) c)) by (exists o, text; apply within_node in W; now apply within_node).
        destruct (C86_given _ _ _ G) as (x & l & ls & r & Q & _). rewrite create_node in Q. cbv zeta in Q. rewrite E in Q. discriminate. }
      destruct X as (x & l & ->). cbn [Captions.transfer create_label]. destruct (transfer k None l). eexists _, k. split; [now left|reflexivity].
    + apply within_node in B as (t & T & B). destruct (IH t T b B Hb Cb) as (c & k & C & K).
      assert (C' : In c (concat (map (fun t => fst (create t)) content))) by (apply in_concat; eexists; split; [|exact C]; now apply (in_map (fun t => fst (create t)))).
      destruct h as [k'|]; cbn [fst]; [|eauto]. assert (Nz : concat (map (fun t => fst (create t)) content) <> nil) by (intros Q; now rewrite Q in C').
      destruct (concat (map (fun t => fst (create t)) content)) as [|x l]; [now contradict Nz|]. cbn [Captions.transfer create_label]. destruct (transfer k' None l).
      eexists _, k'. split; [now left|reflexivity].
Qed.
Lemma transfer_none k l : forall c i, In c l -> cp_id c = Some i -> In i (map fst (snd (transfer k None l))).
Proof.
  induction l as [|x l IH]; intros c i C E; [destruct C|]. cbn [Captions.transfer create_label]. specialize (IH c i). destruct (transfer k None l) as [r ls]. cbn [snd map fst] in *.
  destruct C as [->|C]; [left|right; auto]. unfold caption_id. cbn [c_id]. now rewrite E.
Qed.
Lemma part_labels : forall t a, part a t -> exists p q, snd (create t) = p ++ snd (create a) ++ q.
Proof.
  induction t as [id text|h id content IH] using tag_ind'; intros a A.
  - destruct A as [->|A]; [exists nil, nil; reflexivity|inversion A].
  - destruct A as [->|A]; [exists nil, nil; now rewrite app_nil_r|]. apply within_node in A as (t & T & A). destruct (IH t T a A) as (p & q & E).
    assert (C : exists x y, concat (map (fun t => snd (create t)) content) = x ++ snd (create t) ++ y).
    { apply in_split in T as (u & v & ->). rewrite map_app, concat_app. cbn [map concat]. eauto. }
    destruct C as (x & y & C). rewrite create_node. cbv zeta. rewrite C, E. destruct h as [k|]; cbn [snd].
    + eexists (x ++ p), (q ++ y ++ _). now rewrite <- !app_assoc.
    + exists (x ++ p), (q ++ y). now rewrite <- !app_assoc.
Qed.
(** A figure or table without an id in which there is another with a caption cannot be
    loaded, whatever else is in the document. *)
Theorem C86_nested : forall h sep doc t k content b, sep_of sep <> nil ->
  (forall i k, In (i, k) (snd (create t)) -> names_label (sep_of sep) i) ->
  part (Node (Some k) None content) t -> within b (Node (Some k) None content) -> is_holder b -> captioned b ->
  load sep doc t (run h) = Raise DuplicateLabel.
Proof.
  intros h sep doc t k content b Hs Hn A B Hb Cb. destruct (part_labels t _ A) as (p & q & E). rewrite create_node in E. cbv zeta in E. cbn [snd] in E.
  assert (B' : part b (Node None None content)) by (right; apply within_node in B; now apply within_node).
  destruct (kinded _ _ B' Hb Cb) as (c & k' & C & K). destruct (labelled _ c k' C K) as (i & I & L).
  rewrite create_node in C, L. cbv zeta in C, L. cbn [fst snd] in C, L. pose proof (transfer_none k _ c i C I) as M.
  set (ls := concat (map (fun t => snd (create t)) content)) in *. set (l' := snd (transfer k None _)) in *.
  apply in_map_iff in M as ([i' k2] & Q & M). cbn [fst] in Q. subst i'. apply in_split in M as (u & v & M). rewrite M in E.
  unfold Captions.load. assert (E' : snd (create t) = (p ++ ls ++ u) ++ (i, k2) :: (v ++ q)) by (rewrite E; rewrite <- !app_assoc; reflexivity).
  rewrite E' in Hn |- *. apply AutoLabels.add_labels_dup; [exact Hs|exact Hn|]. right. rewrite !map_app. apply in_or_app. right. apply in_or_app. now left.
Qed.
(** So that not all documents with different ids can be loaded. *)
Theorem C86_nested_refuted : ~ (forall t, NoDup (given t) -> (forall w, In w (written t) -> fst w <> None) ->
  exists m, load (Some (lit "::")) (lit "doc") t (run nil) = Ok m).
Proof.
  intros H. specialize (H (Node (Some Figure) None [Node (Some Table) None [Cap (Some (lit "a")) (lit "A caption")]])).
  destruct H as (m & E); [constructor; [intros []|constructor]|intros w [<-|[]]; discriminate|]. vm_compute in E. discriminate.
Qed.
End Captions.

Fixpoint holds (t : tag) : bool :=
  match t with Cap _ _ => false | Node h _ content => match h with Some _ => true | None => existsb holds content end end.
Lemma holds_part t b : part b t -> is_holder b -> holds t = true.
Proof.
  induction t as [id text|h id content IH] using tag_ind'; intros B Hb.
  - destruct B as [->|B]; [destruct Hb as (? & ? & ? & Q); discriminate|inversion B].
  - cbn [holds]. destruct h as [k|]; [reflexivity|]. destruct B as [->|B]; [destruct Hb as (? & ? & ? & Q); discriminate|].
    apply within_node in B as (t & T & B). apply existsb_exists. exists t. auto.
Qed.
(** A figure with two captions in panels, and a table *)
Example C86_ex : let t := Node None None [Node (Some Figure) (Some (lit "fig:a")) [Node None None [Cap None (lit "First")]; Node None None [Cap (Some (lit "b")) (lit "Second")]];
    Cap None (lit "Naked"); Node (Some Table) None [Cap None (lit "Third")]] in
  unnested t /\ snd (create (fun s => s) t) = [(lit "fig:a", label_kind Figure); (lit "b", label_kind Figure); (lit "caption-Third", label_kind Table)] /\
  NoDup (map fst (anchors (fst (create (fun s => s) t)))) /\
  (exists m, Captions.load (fun s => s) (Some (lit "::")) (lit "doc") t (run nil) = Ok m) /\
  Captions.load (fun s => s) (Some (lit "::")) (lit "doc") (Node (Some Figure) None [t]) (run nil) = Raise DuplicateLabel.
Proof.
  cbv zeta. split; [|split; [reflexivity|]].
  - intros a b A Ha B Hb. exfalso.
    assert (F : forall l, existsb holds l = false -> forall k i, within b (Node k i l) -> False).
    { intros l L k i W. apply within_node in W as (t & T & P). assert (E : existsb holds l = true); [|congruence].
      apply existsb_exists. exists t. split; [exact T|]. now apply holds_part with b. }
    destruct A as [->|A]; [destruct Ha as (? & ? & ? & Q); discriminate|].
    apply within_node in A as (t & [<-|[<-|[<-|[]]]] & A).
    + destruct A as [->|A]; [apply F in B; [exact B|reflexivity]|]. apply within_node in A as (t & T & A).
      destruct T as [<-|[<-|[]]]; pose proof (holds_part _ _ A Ha) as C; discriminate C.
    + destruct A as [->|A]; [destruct Ha as (? & ? & ? & Q); discriminate|inversion A].
    + destruct A as [->|A]; [apply F in B; [exact B|reflexivity]|]. apply within_node in A as (t & T & A).
      destruct T as [<-|[]]; pose proof (holds_part _ _ A Ha) as C; discriminate C.
  - split; [repeat constructor; cbn; intuition discriminate|]. split; [eexists; vm_compute; reflexivity|vm_compute; reflexivity].
Qed.

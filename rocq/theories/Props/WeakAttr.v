(** Property C83: attributes with weak references *)
From Coq Require Import List Bool Arith NArith Lia.
From Verif.Base Require Import Str StrFacts Dict DictFacts Result.
From Verif.Model Require Import Classes WeakAttr.
From Verif.Spec Require Import Classes WeakAttr.
From Verif.Props Require Import Classes.
Import ListNotations.

Lemma all_dicts_wf c : wf (all_dicts c).
Proof.
  unfold all_dicts. generalize (rev (all_parents c) ++ [c]) as l. assert (W : wf (@nil (str * value))) by apply wf_nil. revert W. generalize (@nil (str * value)) as d.
  intros d W l. revert d W. induction l as [|b l IH]; intros d W; cbn [fold_left]; [exact W|]. apply IH. now apply wf_update.
Qed.

Lemma find_name_None d l : find_name d l = None -> forall n, ~ In (n, VWeak d) l.
Proof.
  unfold find_name. induction l as [|[k v] l IH] using rev_ind; intros E n I; [destruct I|].
  rewrite fold_left_app in E. cbn [fold_left snd fst] in E. destruct (is_descr d v) eqn:D; [discriminate|].
  apply in_app_or in I as [I|[I|[]]]; [now apply (IH E n)|]. assert (v = VWeak d) as -> by congruence.
  cbn [is_descr] in D. rewrite eqb_refl in D. discriminate.
Qed.
Lemma find_name_Some d l n : find_name d l = Some n -> In (n, VWeak d) l.
Proof.
  unfold find_name. induction l as [|[k v] l IH] using rev_ind; intros E; [discriminate|].
  rewrite fold_left_app in E. cbn [fold_left snd fst] in E. apply in_or_app. destruct (is_descr d v) eqn:D; [|left; now apply IH].
  right. left. destruct v as [s|e|m]; cbn [is_descr] in D; try discriminate. apply eqb_eq in D. congruence.
Qed.
Lemma find_name_placed name_of class_of d o : placed name_of class_of d o -> find_name d (all_dicts (class_of o)) = Some (name_of d).
Proof.
  intros P. destruct (find_name d (all_dicts (class_of o))) as [n|] eqn:E.
  - apply find_name_Some in E. f_equal. apply P. apply In_lookup; auto. apply all_dicts_wf.
  - exfalso. apply (find_name_None _ _ E (name_of d)). apply lookup_In. now apply P.
Qed.

(** * The history *)
Definition hstep (d o : nat) (acc : option nat) (e : event) : option nat :=
  match e with
  | ESet d' o' (Some v) => if eqb d' d && eqb o' o then Some v else acc
  | EDel d' o' => if eqb d' d && eqb o' o then None else acc
  | _ => acc
  end.
Definition held (es : list event) (d o : nat) : option nat := fold_left (hstep d o) es None.
Lemma held_last es e d o : held (es ++ [e]) d o = hstep d o (held es d o) e.
Proof. unfold held. now rewrite fold_left_app. Qed.
Lemma last_inj (es es' : list event) e e' : es ++ [e] = es' ++ [e'] -> es = es' /\ e = e'.
Proof. apply app_inj_tail. Qed.
Lemma holds_held d o es v : holds d o es v <-> held es d o = Some v.
Proof.
  split.
  - intros H. induction H as [es v|es e v H IH N1 N2]; rewrite held_last; cbn [hstep].
    + now rewrite !eqb_refl.
    + destruct e as [d' o'|d' o' [x|]|d' o'|x]; cbn [hstep]; auto.
      * destruct (eqb_spec d' d) as [->|]; [destruct (eqb_spec o' o) as [->|]|]; cbn [andb]; auto. exfalso; now apply (N1 x).
      * destruct (eqb_spec d' d) as [->|]; [destruct (eqb_spec o' o) as [->|]|]; cbn [andb]; auto. now contradict N2.
  - induction es as [|e es IH] using rev_ind; [discriminate|]. rewrite held_last. intros E.
    destruct e as [d' o'|d' o' [x|]|d' o'|x]; cbn [hstep] in E.
    + apply holds_later; auto; discriminate.
    + destruct (eqb_spec d' d) as [->|N]; [destruct (eqb_spec o' o) as [->|N]|]; cbn [andb] in E.
      * assert (x = v) as -> by congruence. apply holds_set.
      * apply holds_later; auto; [intros y C; congruence|discriminate].
      * apply holds_later; auto; [intros y C; congruence|discriminate].
    + apply holds_later; auto; discriminate.
    + destruct (eqb_spec d' d) as [->|N]; [destruct (eqb_spec o' o) as [->|N]|]; cbn [andb] in E; [discriminate| |].
      * apply holds_later; auto; [discriminate|congruence].
      * apply holds_later; auto; [discriminate|congruence].
    + apply holds_later; auto; discriminate.
Qed.

Section Weak.
Variable name_of : nat -> str.
Variable class_of : nat -> pyclass.
Definition names_ok (w : weak) : Prop := forall d n, lookup d (w_names w) = Some n -> n = name_of d.
Definition Inv (es : list event) (w : weak) : Prop :=
  names_ok w /\ (forall o, wf (refs_of o w)) /\
  (forall d o, placed name_of class_of d o -> lookup (name_of d) (refs_of o w) = held es d o) /\
  (forall v, mem v (w_dead w) = true <-> gone es v).

Lemma attrname_ok d o w : names_ok w -> placed name_of class_of d o ->
  exists w', attrname class_of d o w = Ok (name_of d, w') /\ w_refs w' = w_refs w /\ w_dead w' = w_dead w /\ names_ok w'.
Proof.
  intros N P. unfold attrname. destruct (lookup d (w_names w)) as [n|] eqn:E.
  - exists w. rewrite (N d n E). auto.
  - rewrite (find_name_placed name_of class_of d o P). eexists. split; [reflexivity|]. cbn [w_refs w_dead]. split; auto. split; auto.
    intros d' n L. cbn [w_names] in L. rewrite lookup_set in L. destruct (eqb_spec d' d) as [->|]; [congruence|now apply N].
Qed.
Lemma refs_same o w w' : w_refs w' = w_refs w -> refs_of o w' = refs_of o w.
Proof. intros E. unfold refs_of. now rewrite E. Qed.
Lemma refs_put o r w o' : refs_of o' (put_refs o r w) = if eqb o' o then r else refs_of o' w.
Proof. unfold refs_of, put_refs. cbn [w_refs]. rewrite lookup_set. now destruct (eqb o' o). Qed.
Lemma placed_inj d d' o : placed name_of class_of d o -> placed name_of class_of d' o -> name_of d = name_of d' -> d = d'.
Proof.
  intros P P' E. pose proof (proj2 (P (name_of d)) eq_refl) as A. pose proof (proj2 (P' (name_of d')) eq_refl) as B.
  rewrite <- E in B. congruence.
Qed.

Lemma Inv_other es e w w' : Inv es w -> w_refs w' = w_refs w -> w_dead w' = w_dead w -> names_ok w' ->
  (forall d o, hstep d o (held es d o) e = held es d o) -> (forall v, e <> EDie v) -> Inv (es ++ [e]) w'.
Proof.
  intros (_ & W & H & D) R Dd N S ND. split; [exact N|]. split; [|split].
  - intros o. rewrite (refs_same o w w' R). apply W.
  - intros d o P. rewrite (refs_same o w w' R), held_last, S. now apply H.
  - intros v. rewrite Dd, D. unfold gone. rewrite in_app_iff. split; [now left|]. intros [I|[I|[]]]; auto. exfalso; now apply (ND v).
Qed.

Lemma Inv_step es e w : Inv es w -> all_placed name_of class_of [e] -> Inv (es ++ [e]) (step class_of w e).
Proof.
  intros I P. specialize (P e (or_introl eq_refl)). pose proof I as (N & W & H & D). destruct e as [d o|d o [v|]|d o|v]; cbn [step].
  - destruct (attrname_ok d o w N P) as (w' & E & R & Dd & N'). unfold weak_get. rewrite E. cbn [snd].
    apply (Inv_other es _ w); auto; intros; discriminate.
  - destruct (attrname_ok d o w N P) as (w' & E & R & Dd & N'). unfold weak_set. rewrite E. cbn [snd]. split; [exact N'|]. split; [|split].
    + intros o'. rewrite refs_put. destruct (eqb o' o); [apply wf_set|]; rewrite (refs_same _ w w' R); apply W.
    + intros d' o' P'. rewrite refs_put, held_last. cbn [hstep]. destruct (eqb_spec o' o) as [->|No].
      * rewrite lookup_set, (refs_same o w w' R). destruct (eqb_spec d d') as [->|Nd]; cbn [andb].
        -- now rewrite !eqb_refl.
        -- destruct (eqb_spec (name_of d') (name_of d)) as [En|_]; [|now apply H]. exfalso. apply Nd. symmetry. now apply (placed_inj d' d o).
      * rewrite (refs_same o' w w' R). destruct (eqb_spec o o') as [C|_]; [congruence|]. rewrite andb_false_r. now apply H.
    + intros x. cbn [put_refs w_dead]. rewrite Dd, D. unfold gone. rewrite in_app_iff. split; [now left|]. intros [J|[J|[]]]; [exact J|discriminate].
  - cbn [weak_set snd]. apply (Inv_other es _ w); auto; intros; discriminate.
  - destruct (attrname_ok d o w N P) as (w' & E & R & Dd & N'). unfold weak_del. rewrite E.
    assert (X : forall x, mem x (w_dead w') = true <-> gone (es ++ [EDel d o]) x).
    { intros x. rewrite Dd, D. unfold gone. rewrite in_app_iff. split; [now left|]. intros [J|[J|[]]]; [exact J|discriminate]. }
    destruct (has (name_of d) (refs_of o w')) eqn:Hn; cbn [snd].
    + split; [exact N'|]. split; [|split].
      * intros o'. rewrite refs_put. destruct (eqb o' o); [apply wf_remove|]; rewrite (refs_same _ w w' R); apply W.
      * intros d' o' P'. rewrite refs_put, held_last. cbn [hstep]. destruct (eqb_spec o' o) as [->|No].
        -- rewrite (refs_same o w w' R), lookup_remove by apply W. destruct (eqb_spec d d') as [->|Nd]; cbn [andb].
           ++ now rewrite !eqb_refl.
           ++ destruct (eqb_spec (name_of d') (name_of d)) as [En|_]; [|now apply H]. exfalso. apply Nd. symmetry. now apply (placed_inj d' d o).
        -- rewrite (refs_same o' w w' R). destruct (eqb_spec o o') as [C|_]; [congruence|]. rewrite andb_false_r. now apply H.
      * exact X.
    + split; [exact N'|]. split; [|split].
      * intros o'. rewrite (refs_same _ w w' R). apply W.
      * intros d' o' P'. rewrite (refs_same _ w w' R), held_last. cbn [hstep]. destruct (eqb_spec d d') as [->|Nd]; [destruct (eqb_spec o o') as [->|No]|]; cbn [andb]; try now apply H.
        rewrite <- (refs_same _ w w' R). unfold has in Hn. now destruct (lookup (name_of d') (refs_of o' w')).
      * exact X.
  - split; [exact N|]. split; [exact W|]. split.
    + intros d' o' P'. rewrite held_last. cbn [hstep]. now apply H.
    + intros x. cbn [w_dead]. unfold gone. rewrite in_app_iff. cbn [In]. split.
      * intros M. apply mem_In in M as [->|M]; [right; now left|]. left. apply D. now apply mem_In.
      * intros [J|[J|[]]]; apply mem_In; [right; apply mem_In; now apply D|left; congruence].
Qed.
Lemma Inv_after es : all_placed name_of class_of es -> Inv es (after class_of es).
Proof.
  induction es as [|e es IH] using rev_ind; intros P.
  - split; [intros d n L; discriminate|]. split; [intros o; apply wf_nil|]. split; [reflexivity|]. intros v. split; [discriminate|intros []].
  - unfold after. rewrite fold_left_app. cbn [fold_left]. apply Inv_step.
    + apply IH. intros x I. apply P, in_or_app. now left.
    + intros x [<-|[]]. apply (P e), in_or_app. right. now left.
Qed.

(** After any history an attribute gives the object that was assigned to it last, if it was not
    deleted, and as long as the object is there; otherwise None.  Reading never
    fails. *)
Theorem C83_reads : forall es d o, all_placed name_of class_of es -> placed name_of class_of d o ->
  exists r, fst (weak_get class_of d o (after class_of es)) = Ok r /\
    (forall v, r = Some v <-> holds d o es v /\ ~ gone es v).
Proof.
  intros es d o A P. destruct (Inv_after es A) as (N & W & H & D).
  destruct (attrname_ok d o _ N P) as (w' & E & R & Dd & N'). unfold weak_get. rewrite E. cbn [fst]. eexists. split; [reflexivity|].
  intros v. rewrite (refs_same o _ w' R), (H d o P), Dd, holds_held. destruct (held es d o) as [x|].
  - destruct (mem x (w_dead (after class_of es))) eqn:M.
    + split; [discriminate|]. intros [Q G]. exfalso. apply G. assert (x = v) as <- by congruence. now apply D.
    + split; [intros Q; split; [exact Q|]|now intros [Q _]]. intros G. apply D in G. congruence.
  - split; [discriminate|]. intros [Q _]. discriminate.
Qed.

(** An attribute can be deleted exactly if it holds a reference, alive or not;
    otherwise the error is KeyError. *)
Theorem C83_deletes : forall es d o, all_placed name_of class_of es -> placed name_of class_of d o ->
  fst (weak_del class_of d o (after class_of es)) = Ok tt /\ (exists v, holds d o es v) \/
  fst (weak_del class_of d o (after class_of es)) = Raise KeyError /\ ~ (exists v, holds d o es v).
Proof.
  intros es d o A P. destruct (Inv_after es A) as (N & W & H & D).
  destruct (attrname_ok d o _ N P) as (w' & E & R & Dd & N'). unfold weak_del. rewrite E. unfold has.
  rewrite (refs_same o _ w' R), (H d o P). destruct (held es d o) as [x|] eqn:Q; cbn [fst].
  - left. split; [reflexivity|]. exists x. now apply holds_held.
  - right. split; [reflexivity|]. intros (v & G). apply holds_held in G. congruence.
Qed.
End Weak.

(** A descriptor that the class of the object does not have, and that was not
    used before, gives AttributeError. *)
Theorem C83_foreign : forall class_of es d o,
  (forall n, lookup n (all_dicts (class_of o)) <> Some (VWeak d)) ->
  (forall e, In e es -> match e with EGet d' _ | ESet d' _ _ | EDel d' _ => d' <> d | EDie _ => True end) ->
  fst (weak_get class_of d o (after class_of es)) = Raise AttributeError.
Proof.
  intros class_of es d o F U.
  assert (A : forall d' o' w r w', attrname class_of d' o' w = Ok (r, w') -> d' <> d -> lookup d (w_names w) = None -> lookup d (w_names w') = None).
  { intros d' o' w r w' E N L. unfold attrname in E. destruct (lookup d' (w_names w)); [congruence|].
    destruct (find_name d' (all_dicts (class_of o'))) as [s|]; [|discriminate].
    assert (Q : w' = {| w_names := set d' s (w_names w); w_refs := w_refs w; w_dead := w_dead w |}) by congruence.
    rewrite Q. cbn [w_names]. rewrite lookup_set_neq; auto. }
  assert (L : lookup d (w_names (after class_of es)) = None).
  { induction es as [|e es IH] using rev_ind; [reflexivity|]. unfold after. rewrite fold_left_app. cbn [fold_left]. fold (after class_of es).
    assert (IH' : lookup d (w_names (after class_of es)) = None). { apply IH. intros x I. apply U, in_or_app. now left. }
    assert (Ue := U e (in_or_app es [e] e (or_intror (or_introl eq_refl)))).
    destruct e as [d' o'|d' o' [v|]|d' o'|v]; cbn [step].
    - unfold weak_get. destruct (attrname class_of d' o' (after class_of es)) as [[n w']|x] eqn:E; cbn [snd]; auto. now apply (A d' o' _ n w' E).
    - unfold weak_set. destruct (attrname class_of d' o' (after class_of es)) as [[n w']|x] eqn:E; cbn [snd]; auto. now apply (A d' o' _ n w' E).
    - exact IH'.
    - unfold weak_del. destruct (attrname class_of d' o' (after class_of es)) as [[n w']|x] eqn:E; cbn [snd]; auto.
      destruct (has n (refs_of o' w')); cbn [snd put_refs w_names]; now apply (A d' o' _ n w' E).
    - exact IH'. }
  unfold weak_get, attrname. rewrite L. destruct (find_name d (all_dicts (class_of o))) as [n|] eqn:E; [|reflexivity].
  exfalso. apply (F n). apply In_lookup; [apply all_dicts_wf|]. now apply find_name_Some.
Qed.

(** * Findings *)
Definition tag_class : pyclass := Class 1 [obj] [(lit "context", VWeak 7); (lit "label_manager", VWeak 8)].
Definition tags (o : nat) : pyclass := tag_class.
Definition weak_name (d : nat) : str := if eqb d 7 then lit "context" else lit "label_manager".
Lemma tag_placed d o : d = 7 \/ d = 8 -> placed weak_name tags d o.
Proof.
  intros H n. change (all_dicts (tags o)) with [(lit "context", VWeak 7); (lit "label_manager", VWeak 8)]. cbn [lookup].
  destruct (eqb_spec n (lit "context")) as [->|N1]; [|destruct (eqb_spec n (lit "label_manager")) as [->|N2]].
  - destruct H as [->| ->]; vm_compute; split; congruence.
  - destruct H as [->| ->]; vm_compute; split; congruence.
  - split; [discriminate|]. intros ->. exfalso. destruct H as [->| ->]; [now apply N1|now apply N2].
Qed.

(** Setting an attribute to None does not remove what it holds. *)
Theorem C83_none_refuted : ~ (forall name_of class_of es d o, all_placed name_of class_of es -> placed name_of class_of d o ->
  fst (weak_get class_of d o (after class_of (es ++ [ESet d o None]))) = Ok None).
Proof.
  intros H. specialize (H weak_name tags [ESet 7 1 (Some 5)] 7 1).
  assert (C : fst (weak_get tags 7 1 (after tags ([ESet 7 1 (Some 5)] ++ [ESet 7 1 None]))) = Ok None).
  { apply H; [|apply tag_placed; now left]. intros e [<-|[]]. apply tag_placed. now left. }
  vm_compute in C. discriminate.
Qed.

Example C83_ex : let es := [ESet 7 1 (Some 5); ESet 8 1 (Some 6); ESet 7 2 (Some 6); EGet 7 1; EDie 6; EDel 8 1] in
  all_placed weak_name tags es /\ placed weak_name tags 7 1 /\ holds 7 1 es 5 /\ ~ gone es 5 /\ holds 7 2 es 6 /\ gone es 6 /\
  fst (weak_get tags 7 1 (after tags es)) = Ok (Some 5) /\ fst (weak_get tags 7 2 (after tags es)) = Ok None /\
  fst (weak_get tags 8 1 (after tags es)) = Ok None /\ fst (weak_del tags 8 1 (after tags es)) = Raise KeyError /\
  fst (weak_get tags 9 1 (after tags es)) = Raise AttributeError.
Proof.
  cbv zeta. split. { intros e [<-|[<-|[<-|[<-|[<-|[<-|[]]]]]]]; auto; apply tag_placed; auto. }
  split; [apply tag_placed; auto|]. split; [apply holds_held; vm_compute; reflexivity|].
  split; [unfold gone; cbn [In]; intros C; repeat (destruct C as [C|C]; [discriminate|]); exact C|].
  split; [apply holds_held; vm_compute; reflexivity|]. split; [unfold gone; cbn [In]; auto 10|].
  split; [vm_compute; reflexivity|]. split; [vm_compute; reflexivity|]. split; [vm_compute; reflexivity|]. split; vm_compute; reflexivity.
Qed.

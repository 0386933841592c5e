(** C06: format-string lookup. *)
From Coq Require Import List Bool Arith Lia.
From Verif.Base Require Import Str StrFacts Dict Result.
From Verif.Model Require Import DictUtils.
From Verif.Spec Require Import DictUtils.
Import ListNotations.

Section P.
Context {V : Type} (ks : list str) (suffix : option str) (sep : str).
Implicit Types d : dict str V.

Lemma find_in_dict_step n d :
  find_in_dict ks suffix sep (S n) d =
  match find (fun k => has k d) (keys_for ks suffix sep (S n)) with
  | Some k => lookup k d
  | None => find_in_dict ks suffix sep n d
  end.
Proof.
  cbn [find_in_dict]. unfold keys_for, prefix_key, has.
  generalize (join sep (firstn (S n) ks)). intros tr. destruct suffix as [x|].
  - change (join sep [tr; x]) with (tr ++ sep ++ x). generalize (tr ++ sep ++ x). intros ts.
    cbn [find]. destruct (lookup ts d) eqn:E1; rewrite ?E1; [reflexivity|].
    destruct (lookup tr d) eqn:E2; rewrite ?E2; reflexivity.
  - cbn [find]. destruct (lookup tr d) eqn:E2; rewrite ?E2; reflexivity.
Qed.
Lemma first_hit_find d l v :
  first_hit d l v <-> exists k, find (fun k => has k d) l = Some k /\ lookup k d = Some v.
Proof.
  split.
  - induction 1 as [k l v E|k l v E Hh (k' & IH1 & IH2)]; simpl; unfold has.
    + rewrite E. eauto.
    + rewrite E. eauto.
  - induction l as [|k l IH]; simpl; intros (k' & H1 & H2); [discriminate|].
    unfold has in H1 at 1. destruct (lookup k d) eqn:E.
    + injection H1 as <-. constructor. exact H2.
    + apply hit_later; [exact E|]. apply IH. eauto.
Qed.
Lemma no_hit_find d n :
  no_hit ks suffix sep d n <-> find (fun k => has k d) (keys_for ks suffix sep n) = None.
Proof.
  unfold no_hit. generalize (keys_for ks suffix sep n). intros l. induction l as [|k l IH]; simpl.
  - split; [reflexivity|tauto].
  - unfold has at 1. destruct (lookup k d) eqn:E.
    + split; [|discriminate]. intros Hk. specialize (Hk k (or_introl eq_refl)). congruence.
    + rewrite <- IH. split; intros Hk k'; [intros; apply Hk; auto|].
      intros [<-|Hin]; auto.
Qed.
Lemma find_in_dict_Some n d v : find_in_dict ks suffix sep n d = Some v <->
  exists m, 1 <= m <= n /\ first_hit d (keys_for ks suffix sep m) v /\
            forall j, m < j <= n -> no_hit ks suffix sep d j.
Proof.
  induction n as [|n IH].
  - cbn [find_in_dict]. split; [discriminate|]. intros (m & Hm & _). lia.
  - rewrite find_in_dict_step.
    destruct (find (fun k => has k d) (keys_for ks suffix sep (S n))) as [k|] eqn:E.
    + split.
      * intros El. exists (S n). split; [lia|]. split.
        -- apply first_hit_find. eauto.
        -- intros; lia.
      * intros (m & Hm & Hh & Hno). destruct (Nat.eq_dec m (S n)) as [->|Hne].
        -- apply first_hit_find in Hh as (k' & E1 & E2). congruence.
        -- specialize (Hno (S n) ltac:(lia)). apply no_hit_find in Hno. congruence.
    + rewrite IH. split; intros (m & Hm & Hh & Hno).
      * exists m. split; [lia|]. split; [exact Hh|]. intros j Hj.
        destruct (Nat.eq_dec j (S n)) as [->|]; [apply no_hit_find; exact E|apply Hno; lia].
      * exists m. destruct (Nat.eq_dec m (S n)) as [->|Hne].
        -- apply first_hit_find in Hh as (k' & E1 & E2). congruence.
        -- split; [lia|]. split; [exact Hh|]. intros j Hj. apply Hno. lia.
Qed.
Lemma find_in_dict_None n d : find_in_dict ks suffix sep n d = None <->
  forall m, 1 <= m <= n -> no_hit ks suffix sep d m.
Proof.
  induction n as [|n IH].
  - cbn [find_in_dict]. split; [intros; lia|reflexivity].
  - rewrite find_in_dict_step.
    destruct (find (fun k => has k d) (keys_for ks suffix sep (S n))) as [k|] eqn:E.
    + split.
      * intros El. exfalso. apply find_some in E as [_ E]. unfold has in E. rewrite El in E. discriminate.
      * intros Hno. specialize (Hno (S n) ltac:(lia)). apply no_hit_find in Hno. congruence.
    + rewrite IH. split; intros Hno m Hm; [|apply Hno; lia].
      destruct (Nat.eq_dec m (S n)) as [->|]; [apply no_hit_find; exact E|apply Hno; lia].
Qed.
End P.

(** C06: the value returned is the one for the longest present prefix in the
    first dictionary that has any. *)
Theorem C06_find_entry_best :
  forall (V : Type) (ks : list str) (suffix : option str) (sep : str)
         (dicts : list (dict str V)) (v : V),
    find_entry ks suffix sep dicts = Ok v <->
    exists before d after, dicts = before ++ d :: after /\
      (forall d', In d' before -> hopeless ks suffix sep d') /\
      best ks suffix sep d v.
Proof.
  intros V ks suffix sep dicts v. induction dicts as [|d r IH]; cbn [find_entry].
  - split; [discriminate|]. intros ([|? ?] & d0 & a & E & _); discriminate.
  - destruct (find_in_dict ks suffix sep (length ks) d) as [w|] eqn:E.
    + split.
      * intros [= <-]. exists [], d, r. split; [reflexivity|]. split; [simpl; tauto|].
        apply find_in_dict_Some in E. exact E.
      * intros ([|d0 b] & d' & a & Ed & Hb & Hv).
        -- injection Ed as <- <-. apply find_in_dict_Some in Hv. congruence.
        -- injection Ed as <- _. specialize (Hb d (or_introl eq_refl)).
           apply find_in_dict_None in Hb. congruence.
    + rewrite IH. split.
      * intros (b & d' & a & -> & Hb & Hv). exists (d :: b), d', a. split; [reflexivity|].
        split; [|exact Hv]. intros x [<-|Hx]; [|auto]. exact (proj1 (find_in_dict_None ks suffix sep (length ks) d) E).
      * intros ([|d0 b] & d' & a & Ed & Hb & Hv).
        -- injection Ed as <- <-. apply find_in_dict_Some in Hv. congruence.
        -- injection Ed as <- ->. exists b, d', a. split; [reflexivity|]. split; [|exact Hv].
           intros x Hx. apply Hb. right. exact Hx.
Qed.

(** C06: KeyError is raised exactly when no dictionary has any prefix, and no
    other error is raised. *)
Theorem C06_find_entry_error :
  forall (V : Type) (ks : list str) (suffix : option str) (sep : str)
         (dicts : list (dict str V)) (e : exc),
    find_entry ks suffix sep dicts = Raise e <->
    e = KeyError /\ forall d, In d dicts -> hopeless ks suffix sep d.
Proof.
  intros V ks suffix sep dicts e. induction dicts as [|d r IH]; cbn [find_entry].
  - split; [intros [= <-]; simpl; tauto|]. intros [-> _]. reflexivity.
  - destruct (find_in_dict ks suffix sep (length ks) d) as [w|] eqn:E.
    + split; [discriminate|]. intros [_ H]. specialize (H d (or_introl eq_refl)).
      apply find_in_dict_None in H. congruence.
    + rewrite IH. split; intros [-> H]; (split; [reflexivity|]).
      * intros x [<-|Hx]; [exact (proj1 (find_in_dict_None ks suffix sep (length ks) d) E)|auto].
      * intros x Hx. apply H. right. exact Hx.
Qed.

(** Non-vacuity: the documented example, with a suffixed and a plain match,
    a shorter prefix, and an error. *)
Definition ex_dict : dict str nat :=
  [(lit "starter_middle1_term", 1); (lit "starter_middle1", 2);
   (lit "starter_middle2", 4); (lit "starter_term", 5); (lit "starter", 6)].
Example C06_ex :
  find_entry [lit "starter"; lit "middle1"] (Some (lit "term")) (lit "_") [ex_dict] = Ok 1 /\
  find_entry [lit "starter"; lit "middle1"] None (lit "_") [ex_dict] = Ok 2 /\
  find_entry [lit "starter"; lit "other"] (Some (lit "term")) (lit "_") [[]; ex_dict] = Ok 5 /\
  find_entry [lit "middle1"] None (lit "_") [ex_dict] = Raise KeyError.
Proof. repeat split; reflexivity. Qed.

(** C65: the steps of a sequential build feed each other *)
From Coq Require Import List Bool Arith NArith Lia.
From Verif.Base Require Import Str StrFacts Dict DictFacts Result PurePath.
From Verif.Model Require Import Hash Paths Render Chain.
From Verif.Spec Require Import Chain.
Import ListNotations.

(** ** Parameters without repetitions *)
Lemma eqb_text : forall s t, param_eqb (PText s) (PText t) = true <-> s = t.
Proof. intros s t. cbn. destruct (eqb_spec s t); split; congruence. Qed.

Lemma uniq_sub : forall l seen p, In p (uniq_params seen l) -> In p l.
Proof.
  induction l as [|q l IH]; intros seen p; cbn; [tauto|].
  destruct (existsb _ seen); [|intros [H|H]]; eauto.
Qed.

Lemma uniq_text : forall l seen s, In (PText s) l -> existsb (param_eqb (PText s)) seen = false -> In (PText s) (uniq_params seen l).
Proof.
  induction l as [|q l IH]; intros seen s Hi He; cbn; [destruct Hi|].
  destruct (existsb (param_eqb q) seen) eqn:E.
  - destruct Hi as [->|Hi]; [congruence|eauto].
  - destruct Hi as [->|Hi]; [now left|]. destruct (param_eqb (PText s) q) eqn:Q.
    + destruct q as [x|t]; [discriminate|]. apply eqb_text in Q as ->. now left.
    + right. apply IH; [assumption|]. cbn. cbn in Q. now rewrite Q, He.
Qed.

Lemma uniq_path : forall l seen x, In (PPath x) l -> existsb (param_eqb (PPath x)) seen = false ->
  exists y, In (PPath y) (uniq_params seen l) /\ full y = full x.
Proof.
  induction l as [|q l IH]; intros seen x Hi He; cbn; [destruct Hi|].
  destruct (existsb (param_eqb q) seen) eqn:E.
  - destruct Hi as [->|Hi]; [congruence|eauto].
  - destruct Hi as [->|Hi]; [exists x; split; [now left|reflexivity]|]. destruct (param_eqb (PPath x) q) eqn:Q.
    + destruct q as [z|t]; [|discriminate]. exists z. split; [now left|]. cbn in Q.
      destruct (eqb_spec (full x) (full z)); congruence.
    + destruct (IH (q :: seen) x Hi) as (y & Hy & F); [|exists y; split; [now right|assumption]].
      cbn. cbn in Q. now rewrite Q, He.
Qed.

Lemma In_texts : forall ps s, In s (texts ps) <-> In (PText s) ps.
Proof.
  intros ps s. unfold texts. rewrite in_flat_map. split.
  - intros ([x|t] & Hi & H); [destruct H|]. destruct H as [->|[]]. assumption.
  - intros H. exists (PText s). split; [assumption|now left].
Qed.
Lemma In_paths : forall ps p, In p (paths ps) <-> exists x, In (PPath x) ps /\ p = full x.
Proof.
  intros ps p. unfold paths. rewrite in_flat_map. split.
  - intros ([x|t] & Hi & H); [|destruct H]. destruct H as [<-|[]]. eauto.
  - intros (x & H & ->). exists (PPath x). split; [assumption|now left].
Qed.
Lemma texts_uniq : forall ps s, In s (texts (uniq_params nil ps)) <-> In s (texts ps).
Proof. intros ps s. rewrite !In_texts. split; [apply uniq_sub|]. intros H. apply uniq_text; [assumption|reflexivity]. Qed.
Lemma paths_uniq : forall ps p, In p (paths (uniq_params nil ps)) <-> In p (paths ps).
Proof.
  intros ps p. rewrite !In_paths. split.
  - intros (x & H & ->). apply uniq_sub in H. eauto.
  - intros (x & H & ->). destruct (uniq_path ps nil x H eq_refl) as (y & Hy & F). exists y. split; [assumption|congruence].
Qed.

Lemma uniq_again : forall l seen seen', (forall p, In p (uniq_params seen l) -> existsb (param_eqb p) seen' = true -> existsb (param_eqb p) seen = true) ->
  uniq_params seen' (uniq_params seen l) = uniq_params seen l.
Proof.
  induction l as [|q l IH]; intros seen seen' H; cbn; [reflexivity|].
  destruct (existsb (param_eqb q) seen) eqn:E.
  - apply IH. intros p Hp. apply H. cbn. now rewrite E.
  - cbn. destruct (existsb (param_eqb q) seen') eqn:E'.
    + assert (existsb (param_eqb q) seen = true) by (apply H; [cbn; rewrite E; now left|assumption]). congruence.
    + f_equal. apply IH. intros p Hp. cbn. destruct (param_eqb p q); [reflexivity|]. cbn.
      apply H. cbn. rewrite E. now right.
Qed.
Lemma uniq_idem : forall l, uniq_params nil (uniq_params nil l) = uniq_params nil l.
Proof. intros l. apply uniq_again. discriminate. Qed.

Lemma uniq_nonnil : forall l, l <> nil -> uniq_params nil l <> nil.
Proof. intros [|p l] H; [congruence|]. cbn. discriminate. Qed.

Lemma options_texts : forall ps, options ps = map PText (texts ps).
Proof. induction ps as [|[x|s] ps IH]; cbn; [reflexivity|assumption|now f_equal]. Qed.
Lemma texts_map : forall os, texts (map PText os) = os.
Proof. induction os as [|s os IH]; cbn; [reflexivity|now f_equal]. Qed.
Lemma infiles_uniq_texts : forall os seen, paths (uniq_params seen (map PText os)) = nil.
Proof.
  induction os as [|s os IH]; intros seen; cbn [map uniq_params]; [reflexivity|].
  destruct (existsb _ seen); [apply IH|]. cbn. apply IH.
Qed.
(** What follows a step gets the file that it wrote, and nothing but texts *)
Lemma paths_next : forall y os, paths (uniq_params nil (PPath y :: map PText os)) = [full y].
Proof. intros y os. cbn [uniq_params existsb]. cbn. f_equal. apply infiles_uniq_texts. Qed.

(** ** Nodes *)
Section Induction.
Variable P : node -> Prop.
Hypothesis Hstep : forall k i ps o, P (Step k i ps o).
Hypothesis Hseq : forall i ps o naming l, Forall P l -> P (Seq i ps o naming l).
Fixpoint node_ind' (b : node) : P b :=
  match b with
  | Step k i ps o => Hstep k i ps o
  | Seq i ps o naming l =>
      Hseq i ps o naming l ((fix all (l : list node) : Forall P l :=
        match l with nil => Forall_nil P | x :: r => Forall_cons x (node_ind' x) (all r) end) l)
  end.
End Induction.

Definition raw (b : node) : list param := match b with Step _ _ ps _ | Seq _ ps _ _ _ => ps end.
Fixpoint shape (b : node) : node :=
  match b with Step k i _ _ => Step k i nil None | Seq i _ _ n l => Seq i nil None n (map shape l) end.

Lemma shape_set_params : forall ps b, shape (set_params ps b) = shape b.
Proof. intros ps [k i ? ?|i ? ? n l]; reflexivity. Qed.
Lemma shape_set_out : forall o b, shape (set_out o b) = shape b.
Proof. intros ps [k i ? ?|i ? ? n l]; reflexivity. Qed.

Lemma copy_shape : forall b b', shape b = shape b' -> ends_with_copy b -> ends_with_copy b'.
Proof.
  induction b as [k i ps o|i ps o naming l IH] using node_ind'; intros [k' i' ps' o'|i' ps' o' naming' l'] E; try discriminate; [trivial|].
  cbn in E. injection E as -> -> El. intros [(r & ci & cps & co & L) A]. split.
  - subst l. rewrite map_app in El. cbn in El. clear - El. symmetry in El. apply map_eq_app in El as (r' & z & -> & _ & Z).
    destruct z as [|[k i p o|] [|? ?]]; try discriminate. cbn in Z. injection Z as -> ->. eauto.
  - clear - IH A El. revert l' El. induction l as [|x l IHl]; intros [|x' l'] El; try discriminate; [trivial|].
    cbn in El. injection El as E1 E2. inversion_clear IH as [|? ? H1 H2]. destruct A as [A1 A2]. split; [eapply H1; eassumption|].
    now apply IHl.
Qed.

Section Chain.
Variables (digest hexdigest encode : str -> str) (files : dict path str) (e : env) (added : info -> list param -> list param).
Hypothesis Hadded : forall i ps, added i ps <> nil.
Notation outfile := (outfile digest hexdigest encode files e added).
Notation default_out := (default_out digest hexdigest encode files e).
Notation chain_loop := (chain_loop digest hexdigest encode files e added).
Notation point_copy := (point_copy digest hexdigest encode files e added).
Notation chain := (chain digest hexdigest encode files e added).
Notation steps := (steps digest hexdigest encode files e added).
Notation written := (written digest hexdigest encode files e added).
Notation parameters := (Model.Chain.parameters added).

Lemma do_ok : forall A B (r : result A) (f : A -> result B) b, (do x <- r ; f x) = Ok b -> exists a, r = Ok a /\ f a = Ok b.
Proof. intros A B [a|x] f b H; [eauto|discriminate]. Qed.

Lemma generate_some : forall c t m x l tg ap ex uc um y, generate_outfilepath c t m (x :: l) tg ap ex uc um = Ok y -> y <> None.
Proof. intros c t m x l tg ap ex uc um y H. unfold generate_outfilepath in H. apply do_ok in H as (z & _ & H). congruence. Qed.

Lemma default_some : forall i ps x, default_out i ps = Ok x -> exists y, x = Some y.
Proof.
  intros i ps x H. unfold Model.Chain.default_out, builder_outfilepath in H.
  assert (x <> None) as N; [|destruct x; [eauto|congruence]].
  destruct (flat_map _ _) as [|a l].
  - apply do_ok in H as (m & _ & H). now apply generate_some in H.
  - now apply generate_some in H.
Qed.

(** The search of the sub-builder that gives the name *)
Fixpoint at_nth (n : nat) (l : list node) {struct l} : result (option xpath * list node) :=
  match l, n with
  | nil, _ => Raise AttributeError
  | s :: r, O => do y <- outfile s ; Ok (fst y, snd y :: r)
  | s :: r, S n => do y <- at_nth n r ; Ok (fst y, s :: snd y)
  end.
Lemma outfile_seq : forall i ps naming subs, outfile (Seq i ps None naming subs) =
      do d <- default_out i ps ;
      do r <- match naming with
              | None => Ok (d, subs)
              | Some n =>
                  do r <- at_nth n subs ;
                  match d, fst r with
                  | Some x, Some y => do x <- use_name x (path_name (full y)) ; Ok (Some x, snd r)
                  | _, _ => Raise AttributeError
                  end
              end ;
      do x <- match ext i, fst r with
              | None, x => Ok x
              | Some s, Some x => do x <- use_suffix x s ; Ok (Some x)
              | Some _, None => Raise AttributeError
              end ;
      Ok (x, Seq i ps x naming (snd r)).
Proof. intros i ps [n|] subs; reflexivity. Qed.

(** What a builder answers when it is asked for its output *)
Lemma outfile_some : forall b x b', outfile b = Ok (x, b') -> exists y, x = Some y /\ outfile b' = Ok (Some y, b') /\ raw b' = raw b.
Proof.
  intros [k i ps o|i ps o naming subs] x b' H.
  - destruct o as [y|].
    + cbn in H. destruct k; injection H as <- <-; exists y; repeat split; reflexivity.
    + destruct k.
      * apply do_ok in H as (d & D & H). injection H as <- <-. apply default_some in D as (y & ->). exists y. repeat split; reflexivity.
      * apply do_ok in H as (d & D & H). injection H as <- <-. apply default_some in D as (y & ->). exists y. repeat split; reflexivity.
      * pose proof H as H0. cbn in H. apply do_ok in H as (d & D & H). injection H as <- <-. unfold render_outfilepath in D.
        destruct (uniq_params nil (ps ++ added i ps)) as [|p l] eqn:E.
        { exfalso. revert E. apply uniq_nonnil. intros E. apply app_eq_nil in E as [_ E]. now apply Hadded in E. }
        apply do_ok in D as (m & _ & D). apply generate_some in D. destruct d as [y|]; [|congruence].
        exists y. repeat split; assumption.
  - destruct o as [y|]; [cbn in H; injection H as <- <-; exists y; repeat split; reflexivity|].
    rewrite outfile_seq in H. apply do_ok in H as (d & D & H). apply default_some in D as (z & ->).
    apply do_ok in H as ([r l] & R & H). apply do_ok in H as (y & Y & H). cbn [fst snd] in *. injection H as <- <-.
    assert (exists z', r = Some z') as (z' & ->).
    { destruct naming as [n|]; [|injection R as <- <-; eauto]. apply do_ok in R as ([q l'] & _ & R). cbn [fst snd] in R.
      destruct q; [|discriminate]. apply do_ok in R as (z'' & _ & R). injection R as <- <-. eauto. }
    assert (exists y', y = Some y') as (y' & ->).
    { destruct (ext i); [|injection Y as <-; eauto]. apply do_ok in Y as (u & _ & Y). injection Y as <-. eauto. }
    exists y'. repeat split; reflexivity.
Qed.

Lemma outfile_shape : forall b x b', outfile b = Ok (x, b') -> shape b' = shape b.
Proof.
  induction b as [k i ps o|i ps o naming subs IH] using node_ind'; intros x b' H.
  - destruct o as [y|]; [cbn in H; destruct k; injection H as _ <-; reflexivity|].
    destruct k; cbn in H; apply do_ok in H as (d & D & H); injection H as _ <-; reflexivity.
  - destruct o as [y|]; [cbn in H; injection H as _ <-; reflexivity|].
    rewrite outfile_seq in H. apply do_ok in H as (d & _ & H).
    apply do_ok in H as ([r l] & R & H). apply do_ok in H as (y & _ & H). cbn [fst snd] in *. injection H as _ <-.
    cbn. f_equal. destruct naming as [n|]; [|injection R as _ <-; reflexivity].
    apply do_ok in R as ([q l'] & Q & R). cbn [fst snd] in R. destruct d; [|discriminate]. destruct q as [q|]; [|discriminate].
    apply do_ok in R as (? & _ & R). injection R as _ <-. generalize dependent (Some q). clear - IH. intros q Q.
    revert q n l' Q. induction IH as [|s subs Hs IH' IHl]; intros q n l' Q; [discriminate|].
    cbn in Q. destruct n as [|n]; apply do_ok in Q as ([y z] & Y & Q); cbn [fst snd] in Q; injection Q as _ <-; cbn; f_equal; eauto.
Qed.

Definition read (s : node) : Prop := exists y, outfile s = Ok (Some y, s).

Lemma at_nth_read : forall l n r, Forall read l -> at_nth n l = Ok r -> snd r = l.
Proof.
  induction l as [|s l IH]; intros n r F H; [discriminate|]. inversion_clear F as [|? ? [y Hy] F']. cbn in H.
  destruct n as [|n].
  - rewrite Hy in H. cbn in H. injection H as <-. reflexivity.
  - apply do_ok in H as (q & Q & H). injection H as <-. cbn. f_equal. eauto.
Qed.

Lemma outfile_subs : forall i ps o naming l x b', Forall read l -> outfile (Seq i ps o naming l) = Ok (x, b') ->
  exists y, x = Some y /\ b' = Seq i ps (Some y) naming l /\ (forall z, o = Some z -> y = z).
Proof.
  intros i ps o naming l x b' F H. destruct o as [z|].
  - cbn in H. injection H as <- <-. exists z. repeat split; congruence.
  - destruct (outfile_some _ _ _ H) as (y & -> & _ & _). exists y. split; [reflexivity|]. split; [|discriminate].
    rewrite outfile_seq in H. apply do_ok in H as (d & _ & H).
    apply do_ok in H as ([r l'] & R & H). apply do_ok in H as (u & _ & H). cbn [fst snd] in *. injection H as -> <-. f_equal.
    destruct naming as [n|]; [|injection R as _ <-; reflexivity].
    apply do_ok in R as (q & Q & R). destruct d; [|discriminate]. destruct (fst q); [|discriminate].
    apply do_ok in R as (? & _ & R). injection R as _ <-. eapply at_nth_read; eassumption.
Qed.

(** ** The sub-builders after the loop *)
Inductive linked : list param -> list node -> Prop :=
| linked_nil : forall ps, linked ps nil
| linked_cons : forall ps s y r, raw s = ps -> outfile s = Ok (Some y, s) -> linked (PPath y :: options (parameters s)) r ->
    linked ps (s :: r).

Lemma loop_linked : forall subs cur subs', cur <> nil -> chain_loop cur subs = Ok subs' -> linked cur subs' /\ map shape subs' = map shape subs.
Proof.
  induction subs as [|s subs IH]; intros cur subs' N H; cbn in H.
  - injection H as <-. split; [constructor|reflexivity].
  - destruct cur as [|c cur]; [congruence|]. apply do_ok in H as ([x s'] & S & H). apply do_ok in H as (r & R & H). injection H as <-.
    cbn [fst snd] in R. pose proof (outfile_shape _ _ _ S) as Sh. rewrite shape_set_out, shape_set_params in Sh.
    apply outfile_some in S as (y & -> & Y & Er). apply IH in R as [L M]; [|discriminate]. cbn [snd map]. split; [|congruence].
    econstructor; [|exact Y|exact L]. rewrite Er. destruct s; reflexivity.
Qed.

Lemma linked_read : forall ps l, linked ps l -> Forall read l.
Proof. intros ps l H. induction H; constructor; [eexists; eassumption|assumption]. Qed.

Lemma linked_last : forall l ps k i q o x, linked ps (l ++ [Step k i q o]) -> linked ps (l ++ [Step k i q (Some x)]).
Proof.
  induction l as [|s l IH]; intros ps k i q o x H; cbn in *; inversion_clear H.
  - apply (linked_cons ps _ x); [cbn in *; assumption|destruct k; reflexivity|constructor].
  - econstructor; [assumption|eassumption|]. eapply IH. eassumption.
Qed.

(** ** Pipelines *)
(** A step that is given parameters *)
Definition fed (ps : list param) (s : step) : Prop :=
  (renders s = false -> reads s = paths (uniq_params nil ps)) /\ incl (paths ps) (reads s) /\ incl (texts ps) (opts s).
Inductive pipe (base : list str) : list param -> xpath -> list step -> Prop :=
| pipe_one : forall ps s x, incl base (texts ps) -> fed ps s -> writes s = Some (full x) -> pipe base ps x [s]
| pipe_more : forall ps s y os x r, incl base (texts ps) -> fed ps s -> writes s = Some (full y) ->
    pipe base (PPath y :: map PText os) x r -> pipe base ps x (s :: r).

Lemma pipe_app : forall base ps y l, pipe base ps y l -> forall os x l', pipe base (PPath y :: map PText os) x l' -> pipe base ps x (l ++ l').
Proof. intros base ps y l H. induction H; intros os' x' l' H'; cbn; econstructor; eauto. Qed.

Lemma fed_uniq : forall ps s, fed (uniq_params nil ps) s -> fed ps s.
Proof.
  intros ps s (A & B & C). split; [|split].
  - intros R. rewrite (A R). now rewrite uniq_idem.
  - intros p Hp. apply B. now apply paths_uniq.
  - intros p Hp. apply C. now apply texts_uniq.
Qed.
Lemma pipe_uniq : forall base ps x l, pipe base (uniq_params nil ps) x l -> pipe base ps x l.
Proof.
  intros base ps x l H. inversion H as [? ? ? I F W|? ? ? ? ? ? I F W]; subst; econstructor; eauto using fed_uniq;
  intros t Ht; apply texts_uniq; now apply I.
Qed.

Lemma map_result_ok : forall A B (f : A -> result B) l l', map_result f l = Ok l' -> Forall2 (fun x y => f x = Ok y) l l'.
Proof.
  intros A B f. induction l as [|x l IH]; intros l' H; cbn in H; [injection H as <-; constructor|].
  apply do_ok in H as (y & Y & H). apply do_ok in H as (r & R & H). injection H as <-. constructor; auto.
Qed.

Lemma step_pipe : forall k i ps o x, outfile (Step k i ps o) = Ok (Some x, Step k i ps o) -> forall base, incl base (texts ps) ->
  pipe base ps x (steps (Step k i ps o)).
Proof.
  intros k i ps o x H base I. cbn [Spec.Chain.steps]. constructor; [assumption| |].
  - split; [|split]; cbn [reads opts renders].
    + destruct k; [reflexivity|reflexivity|discriminate].
    + intros p Hp. destruct k; cbn; apply paths_uniq; [assumption|assumption|].
      apply In_paths in Hp as (y & Hy & ->). apply In_paths. exists y. split; [apply in_or_app; now left|reflexivity].
    + intros p Hp. destruct k; cbn; apply texts_uniq; [assumption|assumption|].
      apply In_texts in Hp. apply In_texts, in_or_app. now left.
  - cbn [writes]. unfold Spec.Chain.written. now rewrite H.
Qed.

(** What a chained builder answers, and what its steps do *)
Definition piped (b b' : node) : Prop :=
  exists x, outfile b' = Ok (Some x, b') /\ raw b' = raw b /\ (forall y c, outfile b = Ok (Some y, c) -> c = b -> x = y) /\
  forall base, incl base (texts (raw b)) -> pipe base (raw b) x (steps b').

Lemma subs_pipe : forall n, (forall s s', chain n s = Ok s' -> ends_with_copy s -> raw s <> nil -> read s -> piped s s') ->
  forall l l' cur x, linked cur l -> cur <> nil -> map_result (chain n) l = Ok l' ->
  (exists r i ps, l = r ++ [Step Copier i ps (Some x)]) -> fold_right (fun s p => ends_with_copy s /\ p) True l ->
  forall base, incl base (texts cur) -> pipe base cur x (flat_map steps l').
Proof.
  intros n IH l. induction l as [|s l IHl]; intros l' cur x L N M (r & i & ps & E) A base I; [destruct r; discriminate|].
  inversion L as [|? ? y ? Er Y L']; subst ps0 s0 r0. cbn in M. apply do_ok in M as (s' & S & M). apply do_ok in M as (m & M & M').
  injection M' as <-. destruct A as [A1 A2].
  assert (piped s s') as (y' & Y' & R' & Q & P).
  { apply IH; [assumption|assumption|rewrite Er; assumption|exists y; assumption]. }
  rewrite (Q y s Y eq_refl) in *. specialize (P base). rewrite Er in P. specialize (P I). cbn [flat_map].
  destruct l as [|s2 l].
  - destruct r as [|? [|? ?]]; try discriminate. cbn in E. injection E as ->. cbn in M. injection M as <-. cbn [flat_map]. rewrite app_nil_r.
    cbn in Y. injection Y as ->. assumption.
  - destruct r as [|s0 r]; [discriminate|]. cbn in E. injection E as <- E. rewrite options_texts in L'.
    eapply pipe_app; [exact P|]. apply (IHl m); [exact L'|discriminate|assumption|eauto|assumption|].
    cbn [texts flat_map app]. intros t Ht. change (In t (texts (map PText (texts (parameters s))))). rewrite texts_map.
    apply I in Ht. destruct s as [k si sps so|si sps so nm sl]; cbn [raw] in Er; subst; cbn.
    + destruct k; apply texts_uniq; try assumption. apply In_texts in Ht. apply In_texts, in_or_app. now left.
    + apply texts_uniq. assumption.
Qed.

Lemma fold_copy : forall l l', map shape l = map shape l' -> fold_right (fun s p => ends_with_copy s /\ p) True l -> fold_right (fun s p => ends_with_copy s /\ p) True l'.
Proof.
  induction l as [|s l IH]; intros [|s' l'] E; try discriminate; [trivial|]. cbn in E. injection E as E1 E2. intros [A B].
  split; [eapply copy_shape; eassumption|now apply IH].
Qed.

Lemma point_copy_ok : forall i ps o naming r c q co b', let l := r ++ [Step Copier c q co] in
  Forall read l -> point_copy (Seq i ps o naming l) = Ok b' ->
  exists x, b' = Seq i ps (Some x) naming (r ++ [Step Copier c q (Some x)]) /\ (forall z, o = Some z -> x = z).
Proof.
  intros i ps o naming r c q co b' l F H. unfold Model.Chain.point_copy in H. destruct l as [|s0 l0] eqn:El; [destruct r; discriminate|].
  assert (last (s0 :: l0) s0 = Step Copier c q co) as La by (rewrite <- El; apply last_last).
  rewrite La in H. cbn [is_copier] in H. rewrite <- El in *. apply do_ok in H as ([x b1] & B & H). cbn [fst snd] in H.
  destruct (outfile_subs _ _ _ _ _ _ _ F B) as (y & -> & -> & Z). cbn [fst snd] in H. injection H as <-.
  exists y. split; [|assumption]. f_equal. subst l. rewrite removelast_last, last_last. reflexivity.
Qed.

Lemma chain_piped : forall n b b', chain n b = Ok b' -> ends_with_copy b -> raw b <> nil ->
  (match b with Step _ _ _ _ => read b | _ => True end) -> piped b b'.
Proof.
  induction n as [|n IH]; intros b b' H C N R.
  - destruct b as [k i ps o|i ps o naming subs]; cbn in H; [|discriminate]. injection H as <-. destruct R as (x & X).
    exists x. split; [assumption|]. split; [reflexivity|]. split; [intros y c Y ->; congruence|]. intros base I. now apply step_pipe.
  - destruct b as [k i ps o|i ps o naming subs].
    + cbn in H. injection H as <-. destruct R as (x & X).
      exists x. split; [assumption|]. split; [reflexivity|]. split; [intros y c Y ->; congruence|]. intros base I. now apply step_pipe.
    + cbn [Model.Chain.chain] in H. apply do_ok in H as (subs1 & S & H). apply do_ok in H as (b1 & B & H).
      destruct C as [(r & ci & cp & co & El) A]. cbn [raw] in N.
      apply loop_linked in S as [L Sh]; [|cbn; now apply uniq_nonnil].
      assert (exists r1 cp1 co1, subs1 = r1 ++ [Step Copier ci cp1 co1]) as (r1 & cp1 & co1 & E1).
      { rewrite El, map_app in Sh. cbn in Sh. apply map_eq_app in Sh as (r1 & z & -> & _ & Z).
        destruct z as [|[k1 i1 p1 o1|] [|? ?]]; try discriminate. cbn in Z. injection Z as -> ->. eauto. }
      subst subs1. apply point_copy_ok in B as (x & -> & Z); [|eapply linked_read; eassumption].
      apply do_ok in H as (subs2 & M & H). injection H as <-. exists x. split; [reflexivity|]. split; [reflexivity|]. split.
      * intros y c Y ->. destruct o as [z|].
        { cbn in Y. injection Y as <-. now apply Z. }
        { exfalso. destruct (outfile_some _ _ _ Y) as (y' & Ey & Y' & _). injection Ey as <-.
          rewrite outfile_seq in Y. apply do_ok in Y as (d & _ & Y). apply do_ok in Y as (rr & _ & Y). apply do_ok in Y as (u & _ & Y). congruence. }
      * intros base I. cbn [raw Spec.Chain.steps]. apply pipe_uniq.
        eapply (subs_pipe n); [|eapply linked_last; exact L|cbn; now apply uniq_nonnil|exact M|eauto| |].
        { intros s s' Hs Cs Ns Rs. apply IH; [assumption|assumption|assumption|]. destruct s; [assumption|trivial]. }
        { eapply (fold_copy subs); [|assumption]. rewrite <- Sh, !map_app. reflexivity. }
        { intros t Ht. apply texts_uniq. now apply I. }
Qed.
End Chain.

(** ** What a pipeline does *)
Lemma pipe_link : forall base ps x sts, pipe base ps x sts -> forall l a c l', sts = l ++ a :: c :: l' ->
  exists p, writes a = Some p /\ In p (reads c) /\ (renders c = false -> reads c = [p]).
Proof.
  intros base ps x sts H. induction H as [ps s x I F W|ps s y os x r I F W H IH]; intros l a c l' E.
  - destruct l as [|? [|? ?]]; discriminate.
  - destruct l as [|s' l].
    + cbn in E. injection E as -> ->. exists (full y). split; [assumption|].
      assert (fed (PPath y :: map PText os) c) as (F1 & F2 & _) by (inversion H; assumption). split.
      * apply F2. now left.
      * intros R. rewrite (F1 R). apply paths_next.
    + cbn in E. injection E as -> E. eapply IH. exact E.
Qed.
Lemma pipe_last : forall base ps x sts, pipe base ps x sts -> exists l z, sts = l ++ [z] /\ writes z = Some (full x).
Proof.
  intros base ps x sts H. induction H as [ps s x I F W|ps s y os x r I F W H (l & z & -> & Z)].
  - exists nil, s. now split.
  - exists (s :: l), z. now split.
Qed.
Lemma pipe_opts : forall base ps x sts, pipe base ps x sts -> forall s, In s sts -> incl base (opts s).
Proof.
  intros base ps x sts H. induction H as [ps s x I (_ & _ & F) W|ps s y os x r I (_ & _ & F) W H IH]; intros q Hq.
  - destruct Hq as [->|[]]. intros t Ht. apply F, I, Ht.
  - destruct Hq as [<-|Hq]; [intros t Ht; apply F, I, Ht|now apply IH].
Qed.
Lemma pipe_first : forall base ps x sts, pipe base ps x sts -> exists s r, sts = s :: r /\ fed ps s.
Proof. intros base ps x sts H. inversion H; eauto. Qed.

Lemma pipe_run : forall conv base ps x sts, pipe base ps x sts -> forall s r fs c, sts = s :: r ->
  forallb (fun s => negb (renders s)) r = true -> contents fs (reads s) = Some c ->
  exists fs', run conv sts fs = Some fs' /\ lookup (full x) fs' = Some (composed conv r (conv (who s) c (opts s))).
Proof.
  intros conv base ps x sts H. induction H as [ps s x I F W|ps s y os x r I F W H IH]; intros s' r' fs c E R C.
  - injection E as -> <-. cbn [run]. rewrite C, W. eexists. split; [reflexivity|]. rewrite lookup_set_eq. reflexivity.
  - injection E as -> <-. cbn [run]. rewrite C, W.
    destruct (pipe_first _ _ _ _ H) as (s2 & r2 & -> & F2 & _). cbn in R. apply andb_true_iff in R as [R1 R2].
    assert (renders s2 = false) as R0 by (destruct (renders s2); [discriminate|reflexivity]).
    assert (reads s2 = [full y]) as Rd by (rewrite (F2 R0); apply paths_next).
    edestruct (IH s2 r2 (set (full y) (conv (who s') c (opts s')) fs)) as (fs' & Rn & L); [reflexivity|assumption| |].
    { rewrite Rd. cbn [contents]. now rewrite lookup_set_eq. }
    exists fs'. split; [assumption|]. rewrite L. reflexivity.
Qed.

(** The steps that [chain_subbuilders] sets up: the first one reads what the whole builder is given, every
    other one reads what the one before it wrote, the last one writes the output of the whole, and all of
    them have the options of the whole.  ([added]: a render has at least its template as parameter.) *)
Theorem C65_flow : forall digest hexdigest encode files e added, (forall i ps, added i ps <> nil) ->
  forall n i ps o naming subs b', ps <> nil -> ends_with_copy (Seq i ps o naming subs) ->
  chain digest hexdigest encode files e added n (Seq i ps o naming subs) = Ok b' ->
  let sts := steps digest hexdigest encode files e added b' in
  (exists first rest, sts = first :: rest /\ (forall p, In p (paths ps) -> In p (reads first)) /\
     (renders first = false -> forall p, In p (reads first) -> In p (paths ps))) /\
  (forall l a c l', sts = l ++ a :: c :: l' ->
     exists p, writes a = Some p /\ In p (reads c) /\ (renders c = false -> reads c = [p])) /\
  (exists l z p, sts = l ++ [z] /\ writes z = Some p /\ written digest hexdigest encode files e added b' = Some p) /\
  (forall s, In s sts -> incl (texts ps) (opts s)).
Proof.
  intros digest hexdigest encode files e added Ha n i ps o naming subs b' N C H sts.
  destruct (chain_piped digest hexdigest encode files e added Ha n _ b' H C N I) as (x & X & _ & _ & P).
  specialize (P (texts ps) (incl_refl _)). cbn [raw] in P. fold sts in P. repeat split.
  - destruct (pipe_first _ _ _ _ P) as (s & r & E & F1 & F2 & _). exists s, r. split; [assumption|]. split.
    + intros p Hp. apply F2. assumption.
    + intros R p Hp. rewrite (F1 R) in Hp. exact (proj1 (paths_uniq _ _) Hp).
  - exact (pipe_link _ _ _ _ P).
  - destruct (pipe_last _ _ _ _ P) as (l & z & E & Z). exists l, z, (full x). split; [assumption|]. split; [assumption|].
    unfold written. now rewrite X.
  - exact (pipe_opts _ _ _ _ P).
Qed.

(** Running the steps one after the other leaves, in the output file of the whole, the composition of what
    the steps make, applied to the files that the whole is given *)
Theorem C65_result : forall digest hexdigest encode files e added, (forall i ps, added i ps <> nil) ->
  forall n i ps o naming subs b' conv fs first rest c, ps <> nil -> ends_with_copy (Seq i ps o naming subs) ->
  chain digest hexdigest encode files e added n (Seq i ps o naming subs) = Ok b' ->
  steps digest hexdigest encode files e added b' = first :: rest ->
  (forall s, In s rest -> renders s = false) -> contents fs (reads first) = Some c ->
  exists fs' out, run conv (first :: rest) fs = Some fs' /\
    written digest hexdigest encode files e added b' = Some out /\
    lookup out fs' = Some (composed conv rest (conv (who first) c (opts first))).
Proof.
  intros digest hexdigest encode files e added Ha n i ps o naming subs b' conv fs first rest c N C H E R Hc.
  destruct (chain_piped digest hexdigest encode files e added Ha n _ b' H C N I) as (x & X & _ & _ & P).
  specialize (P nil (incl_nil_l _)). cbn [raw] in P. rewrite E in P.
  destruct (pipe_run conv _ _ _ _ P first rest fs c eq_refl) as (fs' & Rn & L); [|assumption|].
  - apply forallb_forall. intros s Hs. now rewrite (R s Hs).
  - exists fs', (full x). split; [assumption|]. split; [|assumption]. unfold written. now rewrite X.
Qed.

(** An output that was asked for is where the result goes *)
Theorem C65_asked : forall digest hexdigest encode files e added, (forall i ps, added i ps <> nil) ->
  forall n i ps x naming subs b', ps <> nil -> ends_with_copy (Seq i ps (Some x) naming subs) ->
  chain digest hexdigest encode files e added n (Seq i ps (Some x) naming subs) = Ok b' ->
  written digest hexdigest encode files e added b' = Some (full x).
Proof.
  intros digest hexdigest encode files e added Ha n i ps x naming subs b' N C H.
  destruct (chain_piped digest hexdigest encode files e added Ha n _ b' H C N I) as (y & Y & _ & Q & _).
  rewrite (Q x _ eq_refl eq_refl) in Y. unfold written. now rewrite Y.
Qed.

(** The bound on the nesting plays no role *)
Theorem C65_any_depth : forall digest hexdigest encode files e added b n m, nesting b <= n -> nesting b <= m ->
  chain digest hexdigest encode files e added n b = chain digest hexdigest encode files e added m b.
Proof.
  intros digest hexdigest encode files e added.
  assert (forall b b', shape b = shape b' -> nesting b = nesting b') as Hsh.
  { induction b as [k i ps o|i ps o naming l IH] using node_ind'; intros [k' i' ps' o'|i' ps' o' naming' l'] E; try discriminate; [reflexivity|].
    cbn in E. injection E as _ _ El. cbn. f_equal. clear - IH El. revert l' El. induction l as [|x l IHl]; intros [|x' l'] El; try discriminate; [reflexivity|].
    cbn in El. injection El as E1 E2. inversion_clear IH as [|? ? H1 H2]. cbn. rewrite (H1 _ E1), (IHl H2 _ E2). reflexivity. }
  assert (forall subs cur subs', chain_loop digest hexdigest encode files e added cur subs = Ok subs' -> map shape subs' = map shape subs) as Hl.
  { induction subs as [|s subs IH]; intros cur subs' H; cbn in H; [injection H as <-; reflexivity|].
    apply do_ok in H as ([x s'] & S & H). apply do_ok in H as (r & R & H). injection H as <-. cbn [map snd].
    apply outfile_shape in S. rewrite shape_set_out in S. apply IH in R. rewrite R, S. f_equal. destruct cur; [reflexivity|apply shape_set_params]. }
  assert (forall l x d, l <> nil -> map shape (removelast l ++ [set_out x (last l d)]) = map shape l) as Hr.
  { intros l x d N. rewrite (app_removelast_last d N) at 3. rewrite !map_app. cbn. now rewrite shape_set_out. }
  assert (forall b b', point_copy digest hexdigest encode files e added b = Ok b' -> shape b' = shape b) as Hp.
  { intros [k i ps o|i ps o naming [|s r]] b' H; unfold point_copy in H; [injection H as <-; reflexivity|discriminate|].
    destruct (is_copier _); [|injection H as <-; reflexivity].
    apply do_ok in H as ([x b1] & B & H). cbn [fst snd] in H. pose proof (outfile_shape _ _ _ _ _ _ _ _ _ B) as Sh. rewrite <- Sh.
    destruct b1 as [k1 i1 ps1 o1|i1 ps1 o1 n1 l1]; injection H as <-; [reflexivity|]. cbn. f_equal. apply Hr. intros ->. discriminate. }
  intros b n. revert b. induction n as [|n IH]; intros b m Hn Hm.
  { destruct b as [k i ps o|i ps o naming subs]; [destruct m; reflexivity|cbn in Hn; lia]. }
  destruct b as [k i ps o|i ps o naming subs]; [destruct m; reflexivity|]. destruct m as [|m]; [cbn in Hm; lia|].
  cbn [chain]. destruct (chain_loop _ _ _ _ _ _ _ subs) as [subs1|] eqn:L; [|reflexivity]. cbn [bind].
  destruct (point_copy _ _ _ _ _ _ (Seq i ps o naming subs1)) as [b1|] eqn:B; [|reflexivity]. cbn [bind].
  apply Hl in L. apply Hp in B. destruct b1 as [k1 i1 ps1 o1|i1 ps1 o1 n1 l1]; [reflexivity|].
  assert (map shape l1 = map shape subs) as E by (cbn in B; congruence). cbn in Hn, Hm.
  assert (forall l, map shape l = map shape subs -> fold_right (fun s m => Nat.max (nesting s) m) 0 l = fold_right (fun s m => Nat.max (nesting s) m) 0 subs) as Hf.
  { clear - Hsh. induction subs as [|s subs IHs]; intros [|s' l'] E; try discriminate; [reflexivity|]. cbn in E. injection E as E1 E2.
    cbn. rewrite (Hsh _ _ E1), (IHs _ E2). reflexivity. }
  rewrite <- (Hf l1 E) in Hn, Hm. clear - IH Hn Hm.
  assert (map_result (chain digest hexdigest encode files e added n) l1 = map_result (chain digest hexdigest encode files e added m) l1) as ->; [|reflexivity].
  induction l1 as [|s l1 IHl]; [reflexivity|]. cbn in Hn, Hm. cbn. rewrite (IH s m) by lia. destruct (chain _ _ _ _ _ _ m s); [|reflexivity].
  cbn. rewrite IHl by lia. reflexivity.
Qed.

(** *** Examples *)
(** The builder of pdf2svg.py:40-79 for a pdf file and a scale: commands that crop, convert and scale,
    and the copy.  [i] is the place where the copy puts the result. *)
Definition crop_scale (out : option xpath) (ps : list param) : node :=
  let cached id inx ap ex := mkinfo id (Some inx) ap (Some ex) (Some (lit "html")) true true None in
  Seq (mkinfo 0 (Some (lit ".pdf")) None (Some (lit ".svg")) (Some (lit "html")) false true None) ps out None
    [Step Command (cached 1 (lit ".pdf") (Some (lit "_crop")) (lit "pdf")) nil None;
     Step Command (cached 2 (lit ".pdf") None (lit ".svg")) nil None;
     Step Command (cached 3 (lit ".svg") (Some (lit "_scale")) (lit ".svg")) nil None;
     Step Copier (mkinfo 4 (Some (lit ".*")) None None None false true None) nil None].
Definition ex_env : env := mkenv (of_str (lit "/p/.cache")) (of_str (lit "/p")) (Some (lit "media")) (of_str (lit "/p/src")).
Definition ex_added (i : info) (ps : list param) : list param := [PPath (Plain (of_str (lit "/t/template.tex")))].
Definition ex_chain := chain (fun s => s) (fun s => s) (fun s => s) nil ex_env ex_added.
Definition ex_steps := steps (fun s => s) (fun s => s) (fun s => s) nil ex_env ex_added.
Definition ex_ps (scale : str) : list param := [PPath (Source (of_str (lit "/p/src")) (of_str (lit "a/fig.pdf"))); PText scale].

Example C65_ex : exists b', ex_chain 1 (crop_scale None (ex_ps (lit "('scale', 2)"))) = Ok b' /\
  map (fun s => (map path_str (reads s), option_map path_str (writes s))) (ex_steps b') =
    [([lit "/p/src/a/fig.pdf"], Some (lit "/p/.cache/html/media/a/fig_crop.pdf"));
     ([lit "/p/.cache/html/media/a/fig_crop.pdf"], Some (lit "/p/.cache/html/media/a/fig_crop.svg"));
     ([lit "/p/.cache/html/media/a/fig_crop.svg"], Some (lit "/p/.cache/html/media/a/fig_crop_scale.svg"));
     ([lit "/p/.cache/html/media/a/fig_crop_scale.svg"], Some (lit "/p/html/media/a/fig.svg"))] /\
  ends_with_copy (crop_scale None (ex_ps (lit "('scale', 2)"))).
Proof.
  eexists. split; [vm_compute; reflexivity|]. split; [vm_compute; reflexivity|]. split; [|cbn; tauto].
  eexists [_; _; _], _, _, _. reflexivity.
Qed.

(** Nested: a text is saved, and then converted by a sequential builder with two steps (as SaveAsySvg in
    asy_builders.py:76-99) *)
Example C65_ex_nested : exists b', ex_chain 2
   (Seq (mkinfo 0 (Some (lit ".save")) None (Some (lit ".svg")) (Some (lit "html")) false true None) [PText (lit "dot();")] None (Some 0)
     [Step Command (mkinfo 1 (Some (lit ".asy")) None None (Some (lit "html")) true true (Some (of_str (lit "ch1.dm")))) nil None;
      Seq (mkinfo 2 (Some (lit ".asy")) None (Some (lit ".svg")) (Some (lit "html")) true true None) nil None None
        [Step Command (mkinfo 3 (Some (lit ".asy")) None (Some (lit ".pdf")) (Some (lit "html")) true true None) nil None;
         Step Command (mkinfo 4 (Some (lit ".pdf")) None (Some (lit ".svg")) (Some (lit "html")) true true None) nil None;
         Step Copier (mkinfo 5 (Some (lit ".*")) None None None true true None) nil None];
      Step Copier (mkinfo 6 (Some (lit ".*")) None None None false true None) nil None]) = Ok b' /\
  map (fun s => (who s, map path_str (reads s), option_map path_str (writes s))) (ex_steps b') =
    [(1, nil, Some (lit "/p/.cache/html/media/ch1_dot();.asy"));
     (3, [lit "/p/.cache/html/media/ch1_dot();.asy"], Some (lit "/p/.cache/html/media/ch1_dot();.pdf"));
     (4, [lit "/p/.cache/html/media/ch1_dot();.pdf"], Some (lit "/p/.cache/html/media/ch1_dot();.svg"));
     (5, [lit "/p/.cache/html/media/ch1_dot();.svg"], Some (lit "/p/.cache/html/media/ch1_dot();.svg"));
     (6, [lit "/p/.cache/html/media/ch1_dot();.svg"], Some (lit "/p/html/media/ch1_dot();.svg"))].
Proof. eexists. split; vm_compute; reflexivity. Qed.

(** Finding: the options are not part of the name of the result.  Two images made from the same file with
    different options (here: scales) are written to the same file. *)
Theorem C65_options_refuted : ~ (forall digest hexdigest encode files e added n i ps qs naming subs b c,
  (forall i ps, added i ps <> nil) -> ends_with_copy (Seq i ps None naming subs) -> texts ps <> texts qs ->
  chain digest hexdigest encode files e added n (Seq i ps None naming subs) = Ok b ->
  chain digest hexdigest encode files e added n (Seq i qs None naming subs) = Ok c ->
  written digest hexdigest encode files e added b <> written digest hexdigest encode files e added c).
Proof.
  intros H.
  destruct C65_ex as (b & B & _ & C).
  destruct (ex_chain 1 (crop_scale None (ex_ps (lit "('scale', 3)")))) as [c|] eqn:E; [|vm_compute in E; discriminate].
  eapply (H (fun s => s) (fun s => s) (fun s => s) nil ex_env ex_added 1 _ (ex_ps (lit "('scale', 2)")) (ex_ps (lit "('scale', 3)")));
    [discriminate|exact C|discriminate|exact B|exact E|].
  vm_compute in B, E. injection B as <-. injection E as <-. vm_compute. reflexivity.
Qed.

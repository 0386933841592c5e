(** Property C82: what classes have from their parents *)
From Coq Require Import List Bool Arith NArith Lia.
From Verif.Base Require Import Str StrFacts Dict DictFacts Result.
From Verif.Model Require Import Classes.
From Verif.Spec Require Import Classes.
Import ListNotations.

Fixpoint class_ind (P : pyclass -> Prop) (H : forall i bs d, (forall b, In b bs -> P b) -> P (Class i bs d)) (c : pyclass) : P c :=
  match c with
  | Class i bs d => H i bs d ((fix go (l : list pyclass) : forall b, In b l -> P b :=
      match l with
      | nil => fun b F => match F with end
      | x :: r => fun b F => match F with
                             | or_introl E => match E in _ = y return P y with eq_refl => class_ind P H x end
                             | or_intror F => go r b F
                             end
      end) bs)
  end.

Lemma parents_unfold c : all_parents c = c_bases c ++ flat_map (fun s => filter (fun g => negb (is_object g)) (all_parents s)) (c_bases c).
Proof. destruct c. reflexivity. Qed.

Lemma above_trans c b g : above c b -> above b g -> above c g.
Proof.
  intros H. revert g. induction H as [c b I|c b h I A IH]; intros g G.
  - now apply (above_more c b).
  - apply (above_more c b); auto.
Qed.
Lemma from_trans c b g : from c b -> from b g -> from c g.
Proof.
  intros [->|A] [->|B]; [now left|now right|now right|]. right. now apply (above_trans c b).
Qed.
Lemma from_base c b g : In b (c_bases c) -> from b g -> from c g.
Proof. intros I [->|A]; right; [now apply above_base|now apply (above_more c b)]. Qed.

Lemma parents_above c b : In b (all_parents c) -> above c b.
Proof.
  revert b. induction c as [i bs d IH] using class_ind. intros b I. rewrite parents_unfold in I. cbn [c_bases] in I.
  apply in_app_or in I as [I|I]; [now apply above_base|]. apply in_flat_map in I as (s & I1 & I2).
  apply filter_In in I2 as [I2 _]. apply (above_more _ s); auto.
Qed.
Lemma above_parents c b : above c b -> c_id b <> 0 -> In b (all_parents c).
Proof.
  intros A. induction A as [c b I|c b g I A IH]; intros N; rewrite parents_unfold; apply in_or_app; [now left|].
  right. apply in_flat_map. exists b. split; auto. apply filter_In. split; auto.
  unfold is_object. destruct (eqb_spec (c_id g) 0); [contradiction|reflexivity].
Qed.

(** The parents that are found are above the class, and all that are above are
    found, except perhaps [object]. *)
Theorem C82_parents : forall c b,
  (In b (all_parents c) -> above c b) /\ (above c b -> c_id b <> 0 -> In b (all_parents c)).
Proof. intros c b. split; [apply parents_above|apply above_parents]. Qed.

Lemma first_attr_In a l v : first_attr a l = Some v -> exists b, In b l /\ lookup a (c_dict b) = Some v.
Proof.
  induction l as [|c l IH]; cbn [first_attr]; [discriminate|]. destruct (lookup a (c_dict c)) eqn:E; intros H.
  - exists c. split; [now left|]. congruence.
  - destruct (IH H) as (b & I & F). exists b. split; [now right|exact F].
Qed.
Lemma first_attr_None a l : first_attr a l = None <-> forall b, In b l -> lookup a (c_dict b) = None.
Proof.
  induction l as [|c l IH]; cbn [first_attr]; [split; [intros _ b []|reflexivity]|]. destruct (lookup a (c_dict c)) eqn:E.
  - split; [discriminate|]. intros H. rewrite (H c (or_introl eq_refl)) in E. discriminate.
  - rewrite IH. split; intros H b; [intros [<-|I]; auto|]. intros I. apply H. now right.
Qed.

(** The values of an attribute are those that the class and all that are above
    have, and no others. *)
Theorem C82_values : forall mro c a x, resolution mro -> plain_object a c ->
  (In x (all_values mro c a) <-> exists b l, from c b /\ lookup a (c_dict b) = Some (VSet l) /\ In x l).
Proof.
  intros mro c a x R O. unfold all_values. rewrite in_flat_map. split.
  - intros (b & I & E). destruct (first_attr a (mro b)) as [[l|n|n]|] eqn:F; cbn [elements] in E; try contradiction.
    destruct (first_attr_In _ _ _ F) as (g & G & L). exists g, l. split; auto.
    apply (from_trans c b); [|now apply R]. destruct I as [<-|I]; [now left|right; now apply parents_above].
  - intros (b & l & I & L & X). exists b. split.
    + destruct I as [->|A]; [now left|]. right. apply above_parents; auto. intros Z.
      rewrite (O b (or_intror A) Z) in L. discriminate.
    + destruct (R b) as [(r & E) _]. rewrite E. cbn [first_attr]. rewrite L. exact X.
Qed.

(** [find_do_not_inherit] gives these values for all classes, in any sequence of
    calls. *)
Definition cached mro (cs : list pyclass) (cache : dict nat (list str)) : Prop :=
  forall c s, In c cs -> lookup (c_id c) cache = Some s -> s = all_values mro c (lit "do_not_inherit").
Lemma find_each_is mro all cs cache : identities all -> incl cs all -> cached mro all cache ->
  find_each mro cs cache = map (fun c => all_values mro c (lit "do_not_inherit")) cs.
Proof.
  intros U. revert cache. induction cs as [|c cs IH]; intros cache I C; cbn [find_each map]; [reflexivity|].
  assert (Ic : In c all) by (apply I; now left).
  assert (Ir : incl cs all) by (intros y Y; apply I; now right).
  unfold find_do_not_inherit. destruct (lookup (c_id c) cache) as [s|] eqn:E; cbv beta iota zeta.
  - rewrite (C c s Ic E). f_equal. now apply IH.
  - f_equal. apply IH; auto. intros g s G L. rewrite lookup_set in L. destruct (eqb_spec (c_id g) (c_id c)) as [Q|Q].
    + rewrite (U g c G Ic Q). congruence.
    + now apply (C g).
Qed.
Theorem C82_do_not_inherit : forall mro cs i c s x, resolution mro -> identities cs ->
  (forall c, In c cs -> plain_object (lit "do_not_inherit") c) ->
  nth_error cs i = Some c -> nth_error (find_each mro cs nil) i = Some s ->
  (In x s <-> exists b l, from c b /\ lookup (lit "do_not_inherit") (c_dict b) = Some (VSet l) /\ In x l).
Proof.
  intros mro cs i c s x R U O Ec Es.
  rewrite (find_each_is mro cs cs nil U (incl_refl cs)) in Es by (intros g y _ L; discriminate).
  rewrite nth_error_map, Ec in Es. cbn [option_map] in Es.
  assert (s = all_values mro c (lit "do_not_inherit")) as -> by congruence.
  apply C82_values; auto. apply O. now apply (nth_error_In cs i).
Qed.

(** * The entries of all dicts *)
Lemma lookup_rev_wf {V} (k : str) (d : dict str V) : wf d -> lookup k (rev d) = lookup k d.
Proof.
  intros W. assert (W' : wf (rev d)). { unfold wf, keys in *. rewrite map_rev. now apply NoDup_rev. }
  destruct (lookup k d) as [v|] eqn:E.
  - apply In_lookup; auto. apply -> in_rev. now apply lookup_In.
  - apply lookup_None. apply lookup_None in E. unfold keys in *. rewrite map_rev. intros I. apply E. now apply in_rev.
Qed.
Lemma fold_dicts k l d : (forall b, In b l -> wf (c_dict b)) ->
  lookup k (fold_left (fun d b => update d (c_dict b)) l d) = match first_attr k (rev l) with Some v => Some v | None => lookup k d end.
Proof.
  induction l as [|c l IH] using rev_ind; intros W; [reflexivity|].
  rewrite fold_left_app, rev_app_distr. cbn [fold_left rev app first_attr].
  rewrite lookup_update, lookup_rev_wf by (apply W, in_or_app; right; now left).
  destruct (lookup k (c_dict c)); [reflexivity|]. apply IH. intros b I. apply W, in_or_app. now left.
Qed.
Lemma all_dicts_is k c : dicts_wf c -> lookup k (all_dicts c) = first_attr k (c :: all_parents c).
Proof.
  intros W. unfold all_dicts. rewrite fold_dicts.
  - rewrite rev_app_distr, rev_involutive. cbn [rev app lookup]. now destruct (first_attr k (c :: all_parents c)).
  - intros b I. apply in_app_or in I as [I|[<-|[]]]; apply W; [|now left]. right. apply parents_above. now apply in_rev.
Qed.

(** An entry comes from the class or one above, and every entry of one of them
    but [object] is there. *)
Theorem C82_entries : forall c k, dicts_wf c ->
  (forall v, lookup k (all_dicts c) = Some v -> exists b, from c b /\ lookup k (c_dict b) = Some v) /\
  (forall b, from c b -> c_id b <> 0 -> lookup k (c_dict b) <> None -> lookup k (all_dicts c) <> None).
Proof.
  intros c k W. rewrite (all_dicts_is k c W). split.
  - intros v E. destruct (first_attr_In _ _ _ E) as (b & I & L). exists b. split; auto.
    destruct I as [<-|I]; [now left|right; now apply parents_above].
  - intros b F Z N C. apply N. apply (proj1 (first_attr_None k (c :: all_parents c)) C).
    destruct F as [->|A]; [now left|right; now apply above_parents].
Qed.
(** Entries of the class itself come first. *)
Theorem C82_own : forall c k v, dicts_wf c -> lookup k (c_dict c) = Some v -> lookup k (all_dicts c) = Some v.
Proof. intros c k v W E. rewrite (all_dicts_is k c W). cbn [first_attr]. now rewrite E. Qed.

(** With one base for every class, the nearest class that has the entry gives it. *)
Lemma first_filter k l : (forall b, In b l -> c_id b = 0 -> lookup k (c_dict b) = None) ->
  first_attr k (filter (fun g => negb (is_object g)) l) = first_attr k l.
Proof.
  induction l as [|c l IH]; intros O; [reflexivity|]. cbn [filter]. unfold is_object at 1. destruct (eqb_spec (c_id c) 0) as [E|E]; cbn [negb first_attr].
  - rewrite (O c (or_introl eq_refl) E). apply IH. intros b I. apply O. now right.
  - rewrite IH; [reflexivity|]. intros b I. apply O. now right.
Qed.
Lemma first_nearest k c v : single c -> plain_object k c -> (first_attr k (c :: all_parents c) = Some v <-> nearest k c v).
Proof.
  induction c as [i bs d IH] using class_ind. intros S O. rewrite parents_unfold. cbn [c_bases].
  cbn [first_attr c_dict]. destruct (lookup k d) as [w|] eqn:E.
  - split; [intros F; apply nearest_own; cbn [c_dict]; congruence|]. intros N. inversion N as [c' v' L|c' b v' B L N']; subst; cbn [c_dict] in L; congruence.
  - pose proof (S _ (or_introl eq_refl)) as Sl. cbn [c_bases] in Sl. destruct bs as [|b [|b' r]]; [| |cbn in Sl; lia].
    + cbn [app flat_map first_attr]. split; [discriminate|]. intros N. inversion N as [c' v' L|c' b v' B L N']; subst; cbn [c_dict c_bases] in *; congruence.
    + cbn [flat_map app]. rewrite app_nil_r.
      assert (Ib : In b (c_bases (Class i [b] d))) by (now left).
      assert (G : first_attr k (b :: filter (fun g => negb (is_object g)) (all_parents b)) = first_attr k (b :: all_parents b)).
      { cbn [first_attr]. rewrite first_filter; [reflexivity|]. intros g I Z. apply O; auto. apply (from_base _ b); auto. right. now apply parents_above. }
      rewrite G, IH.
      * split; intros N; [apply (nearest_parent k _ b); auto|].
        inversion N as [c' v' L|c' b' v' B L N']; subst; cbn [c_dict c_bases] in *; [congruence|]. now assert (b' = b) as <- by congruence.
      * now left.
      * intros g F. apply S. now apply (from_base _ b).
      * intros g F. apply O. now apply (from_base _ b).
Qed.
Theorem C82_nearest : forall c k v, dicts_wf c -> single c -> plain_object k c ->
  (lookup k (all_dicts c) = Some v <-> nearest k c v).
Proof. intros c k v W S O. rewrite (all_dicts_is k c W). now apply first_nearest. Qed.

(** * Findings *)
Definition obj : pyclass := Class 0 nil nil.
Definition cN : pyclass := Class 4 [obj] [(lit "a", VOther 1)].
Definition cP : pyclass := Class 3 [cN] [(lit "a", VOther 2)].
Definition cM : pyclass := Class 2 [cP] nil.
Definition cD : pyclass := Class 1 [cM; cN] nil.

(** [object] is among the parents of the classes that have it as a base, though
    the documentation says that it is not. *)
Theorem C82_object_refuted : ~ (forall c b, In b (all_parents c) -> c_id b <> 0).
Proof. intros H. refine (H cN obj _ eq_refl). vm_compute. now left. Qed.

Lemma from_D : forall g, from cD g -> In g [cD; cM; cP; cN; obj].
Proof.
  assert (HO : forall g, from obj g -> g = obj).
  { intros g [E|A]; [exact E|]. inversion A as [b I|b h I A']; subst; destruct I. }
  assert (HN : forall g, from cN g -> In g [cN; obj]).
  { intros g [E|A]; [left; now symmetry|]. right; left. symmetry. inversion A as [b I|b h I A']; subst; destruct I as [<-|[]]; apply HO; [now left|now right]. }
  assert (HP : forall g, from cP g -> In g [cP; cN; obj]).
  { intros g [E|A]; [left; now symmetry|]. right. inversion A as [b I|b h I A']; subst; destruct I as [<-|[]]; apply HN; [now left|now right]. }
  assert (HM : forall g, from cM g -> In g [cM; cP; cN; obj]).
  { intros g [E|A]; [left; now symmetry|]. right. inversion A as [b I|b h I A']; subst; destruct I as [<-|[]]; apply HP; [now left|now right]. }
  intros g [E|A]; [left; now symmetry|]. right. inversion A as [b I|b h I A']; subst; destruct I as [<-|[<-|[]]].
  - apply HM. now left.
  - right. right. apply HN. now left.
  - apply HM. now right.
  - right. right. apply HN. now right.
Qed.
Lemma dicts_D : dicts_wf cD.
Proof.
  intros b F. apply from_D in F. destruct F as [<-|[<-|[<-|[<-|[<-|[]]]]]]; unfold wf; cbn;
    repeat (apply NoDup_cons; [intros []|]); apply NoDup_nil.
Qed.

(** With several bases the entry of a class may be given although a class
    below it replaces the entry. *)
Theorem C82_precedence_refuted : ~ (forall c k b g v w, dicts_wf c -> from c b -> above b g ->
  lookup k (c_dict b) = Some v -> lookup k (c_dict g) = Some w -> v <> w ->
  (forall h, from c h -> lookup k (c_dict h) = Some w -> h = g) -> lookup k (all_dicts c) <> Some w).
Proof.
  intros H. refine (H cD (lit "a") cP cN (VOther 2) (VOther 1) dicts_D _ _ eq_refl eq_refl _ _ _).
  - right. apply (above_more cD cM); [now left|]. apply above_base. now left.
  - apply above_base. now left.
  - discriminate.
  - intros h F L. apply from_D in F. destruct F as [<-|[<-|[<-|[<-|[<-|[]]]]]]; vm_compute in L; congruence.
  - vm_compute. reflexivity.
Qed.

(** A change of the setting of a class after the first call is not noticed. *)
Theorem C82_stale_refuted : ~ (forall mro c d s cache x l, resolution mro -> c_id c = c_id d -> c_bases c = c_bases d ->
  find_do_not_inherit mro c nil = (s, cache) ->
  lookup (lit "do_not_inherit") (c_dict d) = Some (VSet l) -> In x l ->
  In x (fst (find_do_not_inherit mro d cache))).
Proof.
  intros H.
  set (mro := fun c => c :: all_parents c ++ filter is_object (flat_map (fix up c := match c with Class _ bs _ => bs ++ flat_map up bs end) [c])).
  assert (U : forall c b, In b ((fix up c := match c with Class _ bs _ => bs ++ flat_map up bs end) c) <-> above c b).
  { set (up := fix up c := match c with Class _ bs _ => bs ++ flat_map up bs end).
    assert (Uu : forall c, up c = c_bases c ++ flat_map up (c_bases c)) by (intros []; reflexivity).
    intros c b. split.
    - revert b. induction c as [i bs e IH] using class_ind. intros b I. rewrite Uu in I. cbn [c_bases] in I.
      apply in_app_or in I as [I|I]; [now apply above_base|]. apply in_flat_map in I as (s & I1 & I2). apply (above_more _ s); auto.
    - intros A. induction A as [c b I|c b g I A IH]; rewrite Uu; apply in_or_app; [now left|right]. apply in_flat_map. eauto. }
  assert (R : resolution mro).
  { intros c. split; [unfold mro; eauto|]. intros b. unfold mro. cbn [flat_map]. rewrite app_nil_r. split.
    - intros [<-|I]; [now left|]. right. apply in_app_or in I as [I|I]; [now apply parents_above|]. apply filter_In in I as [I _]. now apply U.
    - intros [->|A]; [now left|]. right. apply in_or_app. destruct (Nat.eq_dec (c_id b) 0) as [Z|Z]; [|left; now apply above_parents].
      right. apply filter_In. split; [now apply U|]. unfold is_object. rewrite Z. reflexivity. }
  clearbody mro.
  pose (c := Class 1 [obj] [(lit "do_not_inherit", VSet nil)]).
  pose (d := Class 1 [obj] [(lit "do_not_inherit", VSet [lit "x"])]).
  pose proof (H mro c d (all_values mro c (lit "do_not_inherit")) [(1, all_values mro c (lit "do_not_inherit"))] (lit "x") [lit "x"] R eq_refl eq_refl eq_refl eq_refl (or_introl eq_refl)) as X.
  cbn [find_do_not_inherit lookup c_id fst] in X. 
  assert (Y : In (lit "x") (all_values mro c (lit "do_not_inherit"))) by exact X. clear X.
  apply C82_values in Y; auto.
  - destruct Y as (b & l & [->|A] & L & I).
    + vm_compute in L. assert (l = nil) as -> by congruence. contradiction.
    + inversion A as [b' I'|b' h I' A']; subst; destruct I' as [<-|[]].
      * vm_compute in L. discriminate.
      * inversion A' as [b' I'|b' h' I' A'']; subst; destruct I'.
  - intros b [->|A] Z; [discriminate|]. inversion A as [b' I'|b' h I' A']; subst; destruct I' as [<-|[]]; [reflexivity|].
    inversion A' as [b' I'|b' h' I' A'']; subst; destruct I'.
Qed.

Example C82_ex :
  dicts_wf cD /\ above cD cN /\ all_parents cD = [cM; cN; cP; cN] /\
  lookup (lit "a") (all_dicts cM) = Some (VOther 2) /\ nearest (lit "a") cM (VOther 2) /\ lookup (lit "a") (all_dicts cD) = Some (VOther 1) /\
  (let base := Class 1 [obj] [(lit "do_not_inherit", VSet [lit "x"])] in
   let doc := Class 2 [base] [(lit "do_not_inherit", VSet [lit "y"; lit "z"])] in
   identities [base; doc] /\
   find_each (fun c => c :: all_parents c) [base; doc; doc] nil = [[lit "x"]; [lit "y"; lit "z"; lit "x"]; [lit "y"; lit "z"; lit "x"]]).
Proof.
  split; [exact dicts_D|]. split; [apply above_base; right; now left|]. split; [vm_compute; reflexivity|]. split; [vm_compute; reflexivity|].
  split. { apply (nearest_parent _ cM cP); [reflexivity|reflexivity|]. now apply nearest_own. }
  split; [vm_compute; reflexivity|]. cbv zeta. split; [|vm_compute; reflexivity].
  intros c d [<-|[<-|[]]] [<-|[<-|[]]] E; try reflexivity; discriminate.
Qed.

(** Property C88: equal tags, the contents of tables and lists for tex *)
From Coq Require Import List Bool Arith NArith Lia.
From Verif.Base Require Import Str StrFacts Dict DictFacts Result.
From Verif.Model Require Import TagEq.
From Verif.Spec Require Import TagEq.
Import ListNotations.

(** Induction over elements *)
Definition elem_ind' (P : elem -> Prop) (Ht : forall s, P (Text s))
  (Hg : forall c n at1 x ctx, P x -> P (Tag c n at1 x ctx))
  (Hl : forall l, (forall x, In x l -> P x) -> P (Elems l)) : forall e, P e :=
  fix go e := match e with
              | Text s => Ht s
              | Tag c n at1 x ctx => Hg c n at1 x ctx (go x)
              | Elems l => Hl l ((fix all l : forall x, In x l -> P x :=
                  match l with
                  | nil => fun x H => match H with end
                  | y :: r => fun x H => match H with or_introl E => eq_ind y P (go y) x E | or_intror H => all r x H end
                  end) l)
              end.

(** * Equality *)
Lemma dict_eqb_spec a b : wf a -> wf b -> (dict_eqb a b = true <-> forall k, lookup k a = lookup k b).
Proof.
  intros Wa Wb. unfold dict_eqb. rewrite andb_true_iff, Nat.eqb_eq, forallb_forall. split.
  - intros [L F] k.
    assert (I : incl (keys a) (keys b)).
    { intros x X. unfold keys in X. apply in_map_iff in X as ([k' v] & <- & X). specialize (F _ X). cbn [fst snd] in *. apply eqb_eq in F.
      apply lookup_In in F. now apply (in_map fst) in F. }
    destruct (lookup k a) as [v|] eqn:E.
    + apply lookup_In in E. specialize (F _ E). cbn [fst snd] in F. apply eqb_eq in F. now symmetry.
    + destruct (lookup k b) as [v|] eqn:E'; [|reflexivity]. exfalso. apply lookup_In in E'. apply (in_map fst) in E'. cbn [fst] in E'.
      assert (J : incl (keys b) (keys a)) by (apply NoDup_length_incl; [exact Wa|unfold keys; rewrite !map_length; lia|exact I]).
      specialize (J _ E'). unfold keys in J. apply in_map_iff in J as ([k' v'] & Q & J). cbn [fst] in Q. subst k'. apply (In_lookup _ _ _ Wa) in J. congruence.
  - intros H. split.
    + assert (S : forall a b : dict str str, wf a -> wf b -> (forall k, lookup k a = lookup k b) -> length a <= length b).
      { clear. intros a b Wa Wb H. rewrite <- (map_length fst a), <- (map_length fst b). apply NoDup_incl_length; [exact Wa|].
        intros x X. apply in_map_iff in X as ([k v] & <- & X). cbn [fst]. apply (In_lookup _ _ _ Wa) in X. rewrite H in X. apply lookup_In in X. now apply (in_map fst) in X. }
      apply Nat.le_antisymm; apply S; auto.
    + intros [k v] X. cbn [fst snd]. apply (In_lookup _ _ _ Wa) in X. rewrite H in X. rewrite X. apply eqb_refl.
Qed.
(** Tags are equal exactly if they are the same, except for the order of attributes. *)
Theorem C88_same : forall a b, proper a -> proper b -> (elem_eqb a b = true <-> same a b).
Proof.
  induction a as [s|c n at1 x ctx IH|l IH] using elem_ind'; intros b Pa Pb.
  - destruct b as [t|c' n' at2 y ctx'|m]; cbn [elem_eqb]; split; try discriminate; try (intros S; now inversion S).
    + intros E. apply eqb_eq in E as ->. constructor.
    + intros S. inversion S; subst. apply eqb_refl.
  - destruct b as [t|c' n' at2 y ctx'|m]; cbn [elem_eqb]; try (split; [discriminate|intros S; now inversion S]).
    inversion Pa; inversion Pb; subst. rewrite !andb_true_iff, IH, dict_eqb_spec by assumption. split.
    + intros ((((C & N) & D) & X) & K). apply eqb_eq in C, N, K. subst. now constructor.
    + intros S. inversion S; subst. repeat split; try apply eqb_refl; assumption.
  - destruct b as [t|c' n' at2 y ctx'|m]; cbn [elem_eqb]; try (split; [discriminate|intros S; now inversion S]).
    inversion Pa as [| |? Fa]; inversion Pb as [| |? Fb]; subst. revert m Fb Pb. induction l as [|x l IHl]; intros [|y m] Fb Pb; try (split; [discriminate|intros S; now inversion S]).
    + split; [constructor|reflexivity].
    + rewrite andb_true_iff, (IH x (or_introl eq_refl)); [|apply Fa; now left|apply Fb; now left].
      rewrite IHl; [| |constructor| | |].
      * split; [intros [A B]; now constructor|intros S; inversion S; subst; auto].
      * intros z Z. apply IH. now right.
      * intros z Z. apply Fa. now right.
      * intros z Z. apply Fa. now right.
      * intros z Z. apply Fb. now right.
      * constructor. intros z Z. apply Fb. now right.
Qed.
Lemma same_refl a : same a a.
Proof.
  induction a as [s|c n at1 x ctx IH|l IH] using elem_ind'; [constructor|now constructor|].
  induction l as [|x l IHl]; constructor; [apply IH; now left|]. apply IHl. intros y Y. apply IH. now right.
Qed.
Lemma same_sym a b : same a b -> same b a.
Proof. induction 1; constructor; auto. Qed.
Lemma same_trans a b : same a b -> forall c, same b c -> same a c.
Proof.
  induction 1 as [s|c n at1 at2 x y ctx H S IH| |x y l m S IH S' IH']; intros z Z; [exact Z| |exact Z|]; inversion Z; subst; constructor; auto.
  intros k. rewrite H. auto.
Qed.
(** It is an equivalence. *)
Theorem C88_equivalence : forall a b c, proper a -> proper b -> proper c ->
  elem_eqb a a = true /\ elem_eqb a b = elem_eqb b a /\ (elem_eqb a b = true -> elem_eqb b c = true -> elem_eqb a c = true).
Proof.
  intros a b c A B C. split; [|split].
  - apply C88_same; auto. apply same_refl.
  - destruct (elem_eqb a b) eqn:E, (elem_eqb b a) eqn:E'; try reflexivity; exfalso.
    + apply C88_same, same_sym, C88_same in E; auto. congruence.
    + apply C88_same, same_sym, C88_same in E'; auto. congruence.
  - rewrite !C88_same by auto. intros S. apply (same_trans _ _ S).
Qed.

Fixpoint size (e : elem) : nat :=
  match e with Text _ => 1 | Tag _ _ _ x _ => S (size x) | Elems l => S (list_sum (map size l)) end.
Lemma inside_size a b : inside a b -> size a < size b.
Proof.
  revert a. induction b as [s|c n at1 x ctx IH|l IH] using elem_ind'; intros a H; inversion H; subst; cbn [size].
  - match goal with D : _ \/ _ |- _ => destruct D as [->|D]; [lia|apply IH in D; lia] end.
  - assert (L : size x <= list_sum (map size l)).
    { match goal with I : In x l |- _ => revert I end. clear. induction l as [|y l IH]; intros I; [destruct I|]. cbn [map list_sum fold_right]. change (fold_right Nat.add 0 (map size l)) with (list_sum (map size l)).
      destruct I as [->|I]; [lia|apply IH in I; lia]. }
    match goal with D : _ \/ _ |- _ => destruct D as [->|D]; [lia|apply IH in D; [lia|assumption]] end.
Qed.
Lemma eqb_size a : forall b, elem_eqb a b = true -> size a = size b.
Proof.
  induction a as [s|c n at1 x ctx IH|l IH] using elem_ind'; intros [t|c' n' at2 y ctx'|m] E; cbn [elem_eqb] in E; try discriminate; cbn [size].
  - reflexivity.
  - rewrite !andb_true_iff in E. destruct E as [[_ E] _]. now rewrite (IH _ E).
  - f_equal. revert m E. induction l as [|x l IHl]; intros [|y m] E; try discriminate; [reflexivity|]. apply andb_true_iff in E as [E1 E2]. cbn [map list_sum fold_right].
    change (fold_right Nat.add 0 (map size l)) with (list_sum (map size l)). change (fold_right Nat.add 0 (map size m)) with (list_sum (map size m)).
    rewrite (IH x (or_introl eq_refl) y E1), (IHl (fun z Z => IH z (or_intror Z)) m E2). reflexivity.
Qed.
(** Nothing in a tag is equal to it, ... *)
Theorem C88_inside : forall a b, inside a b -> elem_eqb a b = false /\ elem_eqb b a = false.
Proof.
  intros a b I. apply inside_size in I. split; match goal with |- ?x = false => destruct x eqn:E; [|reflexivity] end; apply eqb_size in E; lia.
Qed.
(** ... so that all the contents of a table are formatted, in order. *)
Theorem C88_table : forall A (fmt : elem -> list A) c n at1 l ctx, table_items fmt (Tag c n at1 (Elems l) ctx) = flat_map fmt l.
Proof.
  intros A fmt c n at1 l ctx. cbn [table_items].
  assert (G : forall m, incl m l -> flat_map (fun item => if elem_eqb item (Tag c n at1 (Elems l) ctx) then nil else fmt item) m = flat_map fmt m).
  { induction m as [|x m IH]; intros I; [reflexivity|]. cbn [flat_map]. rewrite IH by (intros y Y; apply I; now right).
    destruct (C88_inside x (Tag c n at1 (Elems l) ctx)) as [-> _]; [|reflexivity]. constructor. right. apply inside_list with x; [apply I; now left|now left]. }
  apply G, incl_refl.
Qed.
Theorem C88_table_one : forall A (fmt : elem -> list A) c n at1 x ctx, (forall l, x <> Elems l) -> table_items fmt (Tag c n at1 x ctx) = fmt x.
Proof.
  intros A fmt c n at1 x ctx N. cbn [table_items]. destruct (C88_inside x (Tag c n at1 x ctx)) as [E _]; [constructor; now left|].
  destruct x as [s|c' n' at2 y ctx'|l]; [| |now destruct (N l)]; cbn [flat_map]; rewrite E; apply app_nil_r.
Qed.
(** The class of a table comes after those of the author; other attributes stay. *)
Theorem C88_class : forall at1 c, lookup (lit "class") (table_class at1 (Some c)) =
    Some (match lookup (lit "class") at1 with Some a => a ++ lit " " ++ c | None => c end) /\
  (forall k, k <> lit "class" -> lookup k (table_class at1 (Some c)) = lookup k at1) /\ table_class at1 None = at1.
Proof.
  intros at1 c. unfold table_class. split; [apply lookup_set_eq|]. split; [|reflexivity]. intros k K. rewrite lookup_set. destruct (eqb_spec k (lit "class")); [contradiction|reflexivity].
Qed.

(** The elements of a tag can be gone through: all positions below its length give an
    element, and others an error. *)
Theorem C88_items : forall l i, (i < len (Elems l) -> exists x, getitem (Elems l) i = Ok x /\ nth_error l i = Some x) /\
  (len (Elems l) <= i -> getitem (Elems l) i = Raise IndexError).
Proof.
  intros l i. cbn [len getitem]. split; intros H.
  - destruct (nth_error l i) as [x|] eqn:E; [eauto|]. apply nth_error_None in E. lia.
  - apply nth_error_None in H. now rewrite H.
Qed.
(** A tag with one element has the length 1, but the element cannot be had. *)
Theorem C88_items_refuted : ~ (forall content i, i < len content -> exists x, getitem content i = Ok x).
Proof. intros H. destruct (H (Text (lit "a")) 0) as (x & E); [cbn; lia|discriminate]. Qed.

(** * Lists *)
Lemma marks_split n m a b : ~ In 167%N (firstn 1 a) -> ~ In 167%N (firstn 1 b) -> repeat 167%N n ++ a = repeat 167%N m ++ b -> n = m /\ a = b.
Proof.
  revert m. induction n as [|n IH]; intros [|m] A B E; cbn [repeat app] in E.
  - auto.
  - exfalso. apply A. rewrite E. now left.
  - exfalso. apply B. rewrite <- E. now left.
  - injection E as E. destruct (IH m A B E) as [-> ->]. auto.
Qed.
Lemma body_split a b x y : ~ In 167%N a -> ~ In 167%N b -> (x = nil \/ exists x', x = 167%N :: x') -> (y = nil \/ exists y', y = 167%N :: y') ->
  a ++ x = b ++ y -> a = b /\ x = y.
Proof.
  revert b. induction a as [|c a IH]; intros [|d b] A B X Y E; cbn [app] in E.
  - auto.
  - exfalso. destruct X as [->|(x' & ->)]; [discriminate|]. injection E as <- _. apply B. now left.
  - exfalso. destruct Y as [->|(y' & ->)]; [discriminate|]. injection E as -> _. apply A. now left.
  - injection E as <- E. destruct (IH b) as [-> ->]; auto; intros I; [apply A|apply B]; now right.
Qed.
Lemma list_tex_start l : list_tex l = nil \/ exists x, list_tex l = 167%N :: x.
Proof.
  destruct l as [|[n s] l]; [now left|right]. unfold list_tex. cbn [map concat fst snd]. unfold item_tex. replace (n + 1) with (S n) by lia. cbn [repeat app]. eauto.
Qed.
(** The levels and texts of the items of a list can be read from it: lists without the
    sign of items in texts are different if their items are. *)
Theorem C88_list : forall l m, no_item l -> no_item m -> list_tex l = list_tex m -> l = m.
Proof.
  induction l as [|[n s] l IH]; intros [|[n' s'] m] L M E.
  - reflexivity.
  - exfalso. unfold list_tex in E. cbn [map concat fst snd] in E. unfold item_tex in E. replace (n' + 1) with (S n') in E by lia. discriminate.
  - exfalso. unfold list_tex in E. cbn [map concat fst snd] in E. unfold item_tex in E. replace (n + 1) with (S n) in E by lia. discriminate.
  - unfold list_tex in E. cbn [map concat fst snd] in E. fold (list_tex l) in E. fold (list_tex m) in E. unfold item_tex in E. rewrite <- !app_assoc in E.
    apply marks_split in E as [N E]; [|cbn; intros [C|[]]; discriminate|cbn; intros [C|[]]; discriminate].
    apply (app_inv_head (lit " ")) in E. rewrite !app_assoc in E.
    assert (S1 : ~ In 167%N (s ++ [10%N])) by (intros I; apply in_app_or in I as [I|[I|[]]]; [exact (L (n, s) (or_introl eq_refl) I)|discriminate]).
    assert (S2 : ~ In 167%N (s' ++ [10%N])) by (intros I; apply in_app_or in I as [I|[I|[]]]; [exact (M (n', s') (or_introl eq_refl) I)|discriminate]).
    destruct (body_split _ _ _ _ S1 S2 (list_tex_start l) (list_tex_start m) E) as [E1 E2]. apply app_inj_tail in E1 as [-> _].
    rewrite (IH m); [f_equal; f_equal; lia|intros x X; apply L; now right|intros x X; apply M; now right|exact E2].
Qed.
(** With it, they are not. *)
Theorem C88_list_refuted : ~ (forall l m, list_tex l = list_tex m -> l = m).
Proof.
  intros H. specialize (H [(0, lit "A"); (0, lit "B")] [(0, lit "A" ++ [10%N; 167%N] ++ lit " B")]). discriminate H. reflexivity.
Qed.

(** A table with a caption and a table of its own, with other attributes *)
Example C88_ex : let t := Tag (lit "Table") (lit "table") [(lit "id", lit "a"); (lit "class", lit "x")]
    (Elems [Tag (lit "Caption") (lit "caption") [] (Text (lit "Words")) (Some 1); Tag (lit "Table") (lit "table") [(lit "class", lit "x"); (lit "id", lit "a")] (Text (lit "Words")) (Some 1)]) (Some 1) in
  proper t /\ table_items (fun e => [e]) t = match t with Tag _ _ _ (Elems l) _ => l | _ => nil end /\
  elem_eqb (Tag (lit "B") (lit "b") [(lit "x", lit "1"); (lit "y", lit "2")] (Text nil) None) (Tag (lit "B") (lit "b") [(lit "y", lit "2"); (lit "x", lit "1")] (Text nil) None) = true /\
  elem_eqb (Tag (lit "B") (lit "b") [] (Text nil) (Some 1)) (Tag (lit "B") (lit "b") [] (Text nil) (Some 2)) = false /\
  no_item [(0, lit "First"); (1, lit "Second")] /\
  list_tex [(0, lit "First"); (1, lit "Second")] = [167%N] ++ lit " First" ++ [10%N; 167%N; 167%N] ++ lit " Second" ++ [10%N].
Proof.
  cbv zeta. split; [|split; [vm_compute; reflexivity|split; [vm_compute; reflexivity|split; [vm_compute; reflexivity|split; [|vm_compute; reflexivity]]]]].
  - constructor; [repeat constructor; cbn; intuition discriminate|]. constructor. intros x [<-|[<-|[]]]; (constructor; [repeat constructor; cbn; intuition discriminate|constructor]).
  - intros x [<-|[<-|[]]]; cbn; intuition discriminate.
Qed.

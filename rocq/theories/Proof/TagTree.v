(** Lemmas about trees of tags. *)
From Coq Require Import List Bool Arith NArith Lia.
From Verif.Base Require Import Str StrFacts ListFacts Result.
From Verif.Model Require Import TagParser TagTree.
From Verif.Spec Require Import TagParser TagTree.
From Verif.Proof Require Import Attributes TagParser.
Import ListNotations.

Section ObjInd.
Variable P : obj -> Prop.
Hypothesis Hstr : forall s, P (OStr s).
Hypothesis Hnone : P ONone.
Hypothesis Htag : forall id cls ctx c, P c -> P (OTag id cls ctx c).
Hypothesis Hlist : forall l, Forall P l -> P (OList l).
Fixpoint obj_ind' (o : obj) : P o :=
  match o with
  | OStr s => Hstr s
  | ONone => Hnone
  | OTag id cls ctx c => Htag id cls ctx c (obj_ind' c)
  | OList l => Hlist l ((fix go (l : list obj) : Forall P l :=
                           match l with nil => Forall_nil P | i :: r => Forall_cons i (obj_ind' i) (go r) end) l)
  end.
End ObjInd.

Lemma plain_lists_list l : plain_lists (OList l) <-> Forall (fun i => (forall l', i <> OList l') /\ plain_lists i) l.
Proof.
  cbn [plain_lists]. induction l as [|i l IH]; [split; constructor|]. rewrite Forall_cons_iff, <- IH. tauto.
Qed.
Lemma no_none_list l : no_none (OList l) <-> Forall no_none l.
Proof. cbn [no_none]. induction l as [|i l IH]; [split; constructor|]. rewrite Forall_cons_iff, <- IH. tauto. Qed.

(** ** Flattening *)
Definition visit (item : obj) : list obj :=
  item :: match item with
          | OTag _ _ _ (OList _ as c) => flatten_all c
          | OTag _ _ _ (OTag _ _ _ _ as c) => flatten_all c
          | _ => nil
          end.
Lemma flatten_list l : flatten (OList l) = flat_map (fun i => filter is_tag (visit i)) l.
Proof.
  unfold flatten. cbn [flatten_all filter is_tag]. fold visit. induction l as [|i l IH]; [reflexivity|].
  cbn [flat_map]. rewrite filter_app, <- IH. reflexivity.
Qed.
Lemma flatten_tag id cls ctx c : flatten (OTag id cls ctx c) =
  OTag id cls ctx c :: match c with
                       | OList l => flatten c
                       | OTag _ _ _ _ => filter is_tag (visit c)
                       | _ => nil
                       end.
Proof.
  destruct c as [s| |id' cls' ctx' c'|l].
  - unfold flatten. cbn [flatten_all filter is_tag]. f_equal. induction s; auto.
  - reflexivity.
  - reflexivity.
  - rewrite flatten_list. unfold flatten. cbn [flatten_all filter is_tag]. fold visit. f_equal.
    induction l as [|i l IH]; [reflexivity|]. cbn [flat_map]. rewrite filter_app, IH. reflexivity.
Qed.
Lemma flatten_tags_of : forall o, plain_lists o ->
  (match o with OStr _ | ONone => True | _ => flatten o = tags_of o end) /\
  (match o with OList _ => True | _ => filter is_tag (visit o) = tags_of o end).
Proof.
  induction o as [s| |id cls ctx c IH|l IH] using obj_ind'; intros Hp.
  - split; [exact I|reflexivity].
  - split; [exact I|reflexivity].
  - destruct (IH Hp) as [IH1 IH2]. rewrite flatten_tag. cbn [tags_of].
    assert (E : filter is_tag (visit (OTag id cls ctx c)) = OTag id cls ctx c :: tags_of c).
    { unfold visit. cbn [filter is_tag]. f_equal. destruct c; try reflexivity; exact IH1. }
    split; [|exact E]. f_equal. destruct c; try reflexivity; [exact IH2|exact IH1].
  - split; [|exact I]. rewrite flatten_list. cbn [tags_of]. apply plain_lists_list in Hp.
    rewrite flat_map_concat_map. f_equal. apply map_ext_in. intros i Hi. rewrite Forall_forall in *.
    destruct (Hp i Hi) as [Hn Hi']. destruct (IH i Hi Hi') as [_ H]. destruct i; try exact H. exfalso. exact (Hn l0 eq_refl).
Qed.

(** ** Copies *)
Definition copy_list (n : nat) (l : list obj) : result (list obj * nat) :=
  (fix go (n : nat) (l : list obj) : result (list obj * nat) :=
     match l with
     | nil => Ok (nil, n)
     | i :: l' => do a <- copy_tag n i ; do b <- go (snd a) l' ; Ok (fst a :: fst b, snd b)
     end) n l.
Lemma copy_list_cons n i l : copy_list n (i :: l) =
  do a <- copy_tag n i ; do b <- copy_list (snd a) l ; Ok (fst a :: fst b, snd b).
Proof. reflexivity. Qed.
Definition copied (n : nat) (o o' : obj) (n' : nat) : Prop :=
  n <= n' /\ shape o' = shape o /\ tag_contexts o' = tag_contexts o /\
  NoDup (tag_ids o') /\ (forall i, In i (tag_ids o') -> n <= i < n') /\ (plain_lists o -> plain_lists o').
Lemma tag_ids_tag id cls ctx c : tag_ids (OTag id cls ctx c) = id :: tag_ids c.
Proof. reflexivity. Qed.
Lemma tag_ids_list l : tag_ids (OList l) = concat (map tag_ids l).
Proof. unfold tag_ids. cbn [tags_of]. rewrite concat_map, map_map. reflexivity. Qed.
Lemma tag_contexts_list l : tag_contexts (OList l) = concat (map tag_contexts l).
Proof. unfold tag_contexts. cbn [tags_of]. rewrite concat_map, map_map. reflexivity. Qed.
Lemma copy_spec : forall o n, no_none o -> exists o' n', copy_tag n o = Ok (o', n') /\ copied n o o' n'.
Proof.
  induction o as [s| |id cls ctx c IH|l IH] using obj_ind'; intros n Hn.
  - exists (OStr s), n. split; [reflexivity|]. split; [lia|]. split; [reflexivity|]. split; [reflexivity|].
    split; [constructor|]. split; [intros i []|auto].
  - destruct Hn.
  - destruct (IH (S n) Hn) as (c' & n' & E & H1 & H2 & H3 & H4 & H5 & H6). cbn [copy_tag]. rewrite E. cbn [bind fst snd].
    exists (OTag n cls ctx c'), n'. split; [reflexivity|]. split; [lia|]. split; [cbn [shape]; congruence|].
    split; [unfold tag_contexts in *; cbn [tags_of map]; congruence|]. rewrite tag_ids_tag. split; [|split].
    + constructor; [|exact H4]. intros Hi. specialize (H5 n Hi). lia.
    + intros i [<-|Hi]; [lia|]. specialize (H5 i Hi). lia.
    + exact H6.
  - apply no_none_list in Hn.
    assert (G : exists l' n', copy_list n l = Ok (l', n') /\ copied n (OList l) (OList l') n').
    { revert n. induction l as [|i l IHl]; intros n.
      - exists [], n. split; [reflexivity|]. split; [lia|]. split; [reflexivity|]. split; [reflexivity|].
        split; [constructor|]. split; [intros i []|auto].
      - apply Forall_cons_iff in Hn as [Hi Hl], IH as [IHi IH'].
        destruct (IHi n Hi) as (i' & n1 & E1 & A1 & A2 & A3 & A4 & A5 & A6).
        destruct (IHl IH' Hl n1) as (l' & n2 & E2 & B1 & B2 & B3 & B4 & B5 & B6).
        exists (i' :: l'), n2. rewrite copy_list_cons, E1. cbn [bind snd]. rewrite E2. cbn [bind fst snd]. split; [reflexivity|].
        split; [lia|]. split; [cbn [shape map] in *; congruence|].
        rewrite !tag_contexts_list in *. rewrite !tag_ids_list in *. cbn [map concat].
        split; [congruence|]. split; [|split].
        + apply NoDup_app_iff. split; [exact A4|]. split; [exact B4|]. intros x Hx Hx'. specialize (A5 x Hx). specialize (B5 x Hx'). lia.
        + intros x Hx. apply in_app_iff in Hx as [Hx|Hx]; [specialize (A5 x Hx)|specialize (B5 x Hx)]; lia.
        + intros Hp. apply plain_lists_list in Hp. apply plain_lists_list. apply Forall_cons_iff in Hp as [[P1 P2] P3].
          constructor; [|apply plain_lists_list, B6, plain_lists_list; exact P3]. split; [|auto].
          intros l0 ->. destruct i; try discriminate A2. exact (P1 l1 eq_refl). }
    destruct G as (l' & n' & E & H). cbn [copy_tag]. fold (copy_list n l). rewrite E. cbn [bind fst snd]. eauto.
Qed.

(** ** Contexts *)
Lemma ids_tag_ids l : Forall (fun o => is_tag o = true) l -> ids l = map (fun t => match t with OTag id _ _ _ => id | _ => 0 end) l.
Proof. induction 1 as [|o l Ho _ IH]; [reflexivity|]. destruct o; try discriminate. cbn [ids flat_map map app]. f_equal. exact IH. Qed.
Lemma tags_are_tags : forall o, Forall (fun t => is_tag t = true) (tags_of o).
Proof.
  induction o as [s| |id cls ctx c IH|l IH] using obj_ind'; cbn [tags_of]; try constructor; auto.
  induction IH as [|i l Hi _ IHl]; cbn; [constructor|]. apply Forall_app. auto.
Qed.
Lemma set_context_all : forall o which new, (forall i, In i (tag_ids o) -> In i which) ->
  shape (set_context which new o) = shape o /\ tag_ids (set_context which new o) = tag_ids o /\
  tag_contexts (set_context which new o) = map (fun _ => new) (tag_ids o).
Proof.
  induction o as [s| |id cls ctx c IH|l IH] using obj_ind'; intros which new Hw.
  - repeat split.
  - repeat split.
  - rewrite tag_ids_tag in Hw. destruct (IH which new) as (H1 & H2 & H3); [intros i Hi; apply Hw; right; exact Hi|].
    cbn [set_context shape]. rewrite H1, !tag_ids_tag, H2. split; [reflexivity|]. split; [reflexivity|].
    unfold tag_contexts in *. cbn [tags_of map]. rewrite H3.
    assert (E : mem id which = true) by (apply mem_In, Hw; left; reflexivity). rewrite E. reflexivity.
  - cbn [set_context shape]. rewrite !tag_ids_list, tag_contexts_list, !map_map in *.
    assert (G : Forall (fun o => shape (set_context which new o) = shape o /\ tag_ids (set_context which new o) = tag_ids o /\
       tag_contexts (set_context which new o) = map (fun _ => new) (tag_ids o)) l).
    { rewrite Forall_forall in *. intros o Ho. apply IH; [exact Ho|]. intros i Hi. apply Hw. rewrite in_concat.
      exists (tag_ids o). split; [apply in_map; exact Ho|exact Hi]. }
    clear Hw IH. split; [|split].
    + f_equal. apply map_ext_in. intros o Ho. rewrite Forall_forall in G. apply (G o Ho).
    + f_equal. apply map_ext_in. intros o Ho. rewrite Forall_forall in G. apply (G o Ho).
    + rewrite concat_map, map_map. f_equal. apply map_ext_in. intros o Ho. rewrite Forall_forall in G. apply (G o Ho).
Qed.
Lemma flatten_ids o : plain_lists o -> is_tag o = true -> ids (flatten o) = tag_ids o.
Proof.
  intros Hp Ht. destruct (flatten_tags_of o Hp) as [H _]. destruct o; try discriminate. rewrite H.
  apply ids_tag_ids, tags_are_tags.
Qed.

(** ** Text *)
Lemma join_strs_map l : join_strs (map OStr l) = Ok (concat l).
Proof. induction l as [|s l IH]; [reflexivity|]. cbn [map join_strs]. rewrite IH. reflexivity. Qed.
Lemma map_r_Ok {A B} (f : A -> result B) (g : A -> B) l : Forall (fun x => f x = Ok (g x)) l -> map_r f l = Ok (map g l).
Proof. induction 1 as [|x l Hx _ IH]; [reflexivity|]. unfold map_r in *. cbn [map]. rewrite Hx. cbn [bind]. rewrite IH. reflexivity. Qed.
Lemma default_fmt_text : forall o, plain_lists o -> no_none o -> default_fmt o = Ok (OStr (text_of o)).
Proof.
  assert (G : forall o, plain_lists o -> no_none o ->
     default_fmt o = Ok (OStr (text_of o)) /\
     ((forall l, o <> OList l) -> match o with OTag _ _ _ c => default_fmt c | _ => Ok o end = Ok (OStr (text_of o)))).
  { induction o as [s| |id cls ctx c IH|l IH] using obj_ind'; intros Hp Hn.
    - split; reflexivity.
    - destruct Hn.
    - destruct (IH Hp Hn) as [H _]. split; [|intros _; exact H]. cbn [default_fmt]. rewrite H. reflexivity.
    - split; [|intros H; destruct (H l eq_refl)]. apply plain_lists_list in Hp. apply no_none_list in Hn. cbn [default_fmt].
      rewrite (map_r_Ok _ (fun o => OStr (text_of o))).
      + cbn [bind]. replace (map (fun o => OStr (text_of o)) l) with (map OStr (map text_of l)) by apply map_map.
        cbn [text_of]. destruct l as [|i [|j l]].
        * reflexivity.
        * cbn. rewrite app_nil_r. reflexivity.
        * cbn [map]. change (OStr (text_of i) :: OStr (text_of j) :: map OStr (map text_of l)) with (map OStr (map text_of (i :: j :: l))).
          rewrite join_strs_map. reflexivity.
      + rewrite Forall_forall in *. intros o Ho. destruct (Hp o Ho) as [H1 H2]. apply (IH o Ho H2 (Hn o Ho)). exact H1. }
  intros o Hp Hn. apply (G o Hp Hn).
Qed.
Lemma of_content_text : forall c, text_of (of_content c) = plain_text c.
Proof.
  induction c as [s|n a c IH|l IH] using content_ind'; cbn [of_content text_of plain_text]; auto.
  f_equal. rewrite map_map. apply map_ext_in. intros c Hc. rewrite Forall_forall in IH. auto.
Qed.
Lemma of_content_tidy : forall c, tidy c -> plain_lists (of_content c) /\ no_none (of_content c).
Proof.
  induction c as [s|n a c IH|l IH] using content_ind'; intros H; inversion H as [|? ? ? Hc _|? Hl Ha]; subst.
  - split; exact I.
  - cbn [of_content plain_lists no_none]. auto.
  - cbn [of_content]. rewrite plain_lists_list, no_none_list. rewrite Forall_forall in IH, Hl. split; apply Forall_map, Forall_forall; intros c Hc.
    + split; [|apply IH; auto]. intros l' E. destruct c as [s|n a c|l0]; try discriminate.
      clear -Ha Hc. revert Ha Hc. generalize false as p. induction l as [|c l IHl]; intros p Ha [].
      * subst c. exact Ha.
      * destruct c; cbn in Ha; [eapply IHl; [apply Ha|assumption]|eapply IHl; eassumption|contradiction].
    + apply IH; auto.
Qed.
Lemma parse_tidy uw verbatim x c : parse_text uw verbatim x = Ok c -> tidy c.
Proof.
  intros H. rewrite parse_text_items in H. destruct (items uw verbatim x) as [l|] eqn:E; [|discriminate].
  cbn [bind] in H. apply Ok_inj in H. subst c. destruct (items_tidy uw verbatim x l E) as [H1 H2]. apply tidy_simplify; assumption.
Qed.

(** ** Replacing tags *)
Lemma repl_classes sub new : forall o, Forall (fun c => sub c = false) (tag_classes (repl_tags sub new o)).
Proof.
  induction o as [s| |id cls ctx c IH|l IH] using obj_ind'; cbn [repl_tags]; try constructor.
  - destruct (sub cls) eqn:E; [constructor|]. unfold tag_classes in *. cbn [tags_of map]. constructor; assumption.
  - unfold tag_classes in *. cbn [tags_of]. rewrite map_map, concat_map, map_map. induction IH as [|i l Hi _ IHl]; cbn; [constructor|].
    apply Forall_app. auto.
Qed.

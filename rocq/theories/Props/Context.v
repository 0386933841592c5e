(** C25, C26, C27: contexts *)
From Coq Require Import List Bool Arith NArith ZArith Lia Permutation.
From Verif.Base Require Import Str StrFacts Dict DictFacts Result.
From Verif.Model Require Import StringUtils StrToDict Context.
From Verif.Spec Require Import Context.
From Verif.Proof Require Import ContextTags Context.
Import ListNotations.

(** * C26 *)

(** An update makes of each entry what the specification says: entries without a
    change are kept, new ones are copied, lists get the items at the front, sets
    the union, dictionaries are updated entry by entry, and other values are
    converted to the type they had.  No object outside of the context is changed. *)
Theorem C26_update : forall to_int to_float lower rp overwrite self ch h h' d c F G,
  holds h (VRef self) (TDict d) F -> holds h (VRef ch) (TDict c) G -> apart F G ->
  match_update to_int to_float lower 5 rp overwrite self ch None h = Ok h' ->
  exists d' F', holds h' (VRef self) (TDict d') F' /\
    (forall k, Entry to_int to_float lower (mem k rp) overwrite (lookup k d) (lookup k c) (lookup k d')) /\
    holds h' (VRef ch) (TDict c) G /\
    (forall a, a < length h -> ~ F a -> nth_error h' a = nth_error h a).
Proof.
  intros to_int to_float lower rp w self ch h h' d c F G HF HG HA E.
  destruct (update_spec to_int to_float lower 5 rp w self ch None h h' d c F G HF HG HA I E) as (d' & F' & U1 & U2 & _ & U4 & U5 & _).
  exists d', F'. split; [exact U1|]. split; [intros k; apply (U2 k I)|]. split; [|exact U5].
  eapply frame; [exact HG|]. intros a Ha. apply U5; [exact (bound _ _ _ _ _ HG Ha)|]. intros Hf. exact (HA a Hf Ha).
Qed.

(** Only the given keys are updated. *)
Theorem C26_keys : forall to_int to_float lower rp overwrite self ch ks h h' d c F G,
  holds h (VRef self) (TDict d) F -> holds h (VRef ch) (TDict c) G -> apart F G -> NoDup ks ->
  match_update to_int to_float lower 5 rp overwrite self ch (Some ks) h = Ok h' ->
  exists d' F', holds h' (VRef self) (TDict d') F' /\
    (forall k, In k ks -> Entry to_int to_float lower (mem k rp) overwrite (lookup k d) (lookup k c) (lookup k d')) /\
    (forall k, ~ In k ks -> lookup k d' = lookup k d).
Proof.
  intros to_int to_float lower rp w self ch ks h h' d c F G HF HG HA Nd E.
  destruct (update_spec to_int to_float lower 5 rp w self ch (Some ks) h h' d c F G HF HG HA Nd E) as (d' & F' & U1 & U2 & U3 & _).
  exists d', F'. auto.
Qed.

(** No entry is lost, and none changes its type. *)
Theorem C26_kinds : forall to_int to_float lower rp overwrite self ch h h' d c F G,
  holds h (VRef self) (TDict d) F -> holds h (VRef ch) (TDict c) G -> apart F G ->
  match_update to_int to_float lower 5 rp overwrite self ch None h = Ok h' ->
  exists d' F', holds h' (VRef self) (TDict d') F' /\
    forall k t, lookup k d = Some t -> exists t', lookup k d' = Some t' /\ kind_of t' = kind_of t.
Proof.
  intros to_int to_float lower rp w self ch h h' d c F G HF HG HA E.
  destruct (C26_update _ _ _ _ _ _ _ _ _ _ _ _ _ HF HG HA E) as (d' & F' & U1 & U2 & _).
  exists d', F'. split; [exact U1|]. intros k t Et. specialize (U2 k). rewrite Et in U2. inversion U2; subst.
  - exists t. auto.
  - exists r. split; auto. match goal with H : Updated _ _ _ _ _ _ |- _ => rewrite (updated_kind _ _ _ _ _ _ H) end. destruct (mem k rp); destruct t; auto.
  - exists t. auto.
Qed.

(** The specification determines the result (up to the order of the entries). *)
Theorem C26_unique : forall to_int to_float lower rp w o v r r',
  Entry to_int to_float lower rp w o v r -> Entry to_int to_float lower rp w o v r' -> same_opt r r'.
Proof. intros to_int to_float lower rp w o v r r' H. now apply entry_det. Qed.

(** ** Building contexts for the examples *)
Definition one (k : str) (P : nat -> Prop) : nat -> nat -> Prop := fun a x => x = a \/ exists k', (if eqb k' k then P else fun _ => False) x.
Lemma holds_one h a k v t P : nth_error h a = Some (CDict [(k, v)]) -> holds h v t P -> ~ P a ->
  holds h (VRef a) (TDict [(k, t)]) (one k P a).
Proof.
  intros Hc Hv Ha. apply (holds_dict h a [(k, v)] [(k, t)] (fun k' => if eqb k' k then P else fun _ => False)); auto.
  - unfold wf. cbn. constructor; [auto|constructor].
  - intros k'. cbn. destruct (eqb k' k); constructor. exact Hv.
  - intros k'. destruct (eqb k' k); auto.
  - intros k1 k2 x. destruct (eqb_spec k1 k), (eqb_spec k2 k); subst; tauto.
Qed.
Definition none (a : nat) : nat -> Prop := fun x => x = a \/ exists k : str, False.
Lemma holds_none h a : nth_error h a = Some (CDict nil) -> holds h (VRef a) (TDict nil) (none a).
Proof.
  intros Hc. apply (holds_dict h a nil nil (fun _ _ => False)); auto; try tauto.
  - constructor.
  - intros k. constructor.
Qed.
Lemma one_iff k P a x : one k P a x <-> x = a \/ P x.
Proof.
  unfold one. split; intros [H|H]; auto.
  - destruct H as [k' H]. destruct (eqb k' k); tauto.
  - right. exists k. destruct (eqb_spec k k); [auto|congruence].
Qed.
Lemma none_iff a x : none a x <-> x = a.
Proof. unfold none. split; [intros [H|[k []]]; auto|auto]. Qed.

Definition no_int : scalar -> result Z := fun _ => Raise ValueError.
Definition no_float : scalar -> result N := fun _ => Raise ValueError.
Definition id_str : str -> str := fun s => s.
Definition id_order : list str -> list str := fun l => l.

(** A list in a dictionary of the context *)
Example C26_ex :
  let h := [CDict [(lit "a", VRef 1)]; CDict [(lit "b", VRef 2)]; CList [VS (SStr (lit "x"))];
            CDict [(lit "a", VS (SStr (lit "b: y, z")))]] in
  exists h' F, holds h (VRef 0) (TDict [(lit "a", TDict [(lit "b", TList [TS (SStr (lit "x"))])])]) F /\
    match_update no_int no_float id_str 5 nil true 0 3 None h = Ok h' /\
    nth_error h' 2 = Some (CList [VS (SStr (lit "y")); VS (SStr (lit "z")); VS (SStr (lit "x"))]).
Proof.
  cbv zeta. eexists. eexists. split; [|split].
  - eapply holds_one; [reflexivity|eapply holds_one; [reflexivity|eapply holds_list; [reflexivity|repeat constructor|]|]|].
    + intros [[]|[]].
    + intros [H|[[]|[]]]; discriminate.
    + rewrite one_iff. intros [H|[H|[[]|[]]]]; discriminate.
  - vm_compute. reflexivity.
  - reflexivity.
Qed.

(** Finding: an entry that is a boolean cannot be updated with a boolean; for
    example relative_links (settings.py) with an initial value False. *)
Theorem C26_bool_refuted :
  ~ (forall to_int to_float lower rp overwrite self ch h d c F G,
       holds h (VRef self) (TDict d) F -> holds h (VRef ch) (TDict c) G -> apart F G ->
       (forall k s v, lookup k d = Some (TS s) -> lookup k c = Some v -> kind_of v = kind_of (TS s)) ->
       is_ok (match_update to_int to_float lower 5 rp overwrite self ch None h) = true).
Proof.
  intros H.
  set (h := [CDict [(lit "relative_links", VS (SBool true))]; CDict [(lit "relative_links", VS (SBool false))]]).
  assert (H0 : holds h (VRef 0) (TDict [(lit "relative_links", TS (SBool true))]) (one (lit "relative_links") (fun _ => False) 0)).
  { eapply holds_one; [reflexivity|constructor|auto]. }
  assert (H1 : holds h (VRef 1) (TDict [(lit "relative_links", TS (SBool false))]) (one (lit "relative_links") (fun _ => False) 1)).
  { eapply holds_one; [reflexivity|constructor|auto]. }
  specialize (H no_int no_float id_str nil true 0 1 h _ _ _ _ H0 H1).
  assert (X : false = true); [|discriminate X]. apply H.
  - intros x. rewrite !one_iff. intros [->|[]] [E|[]]. discriminate.
  - intros k s v. cbn. destruct (eqb k _); [|discriminate]. intros E1 E2. injection E1 as <-. injection E2 as <-. reflexivity.
Qed.

(** * C25 *)

(** After a reset the entries are determined by the inherited entries, the initial
    values, and - for protected entries only - the value before the reset. *)
Theorem C25_reset : forall to_int to_float lower order, (forall l, Permutation (order l) l) ->
  forall C x h h' d dp di F G I,
  holds h (VRef (self x)) (TDict d) F -> holds_parent h (parent x) dp G -> holds h (VRef (initial x)) (TDict di) I ->
  apart F G -> apart F I -> apart G I ->
  reset to_int to_float lower order C x h = Ok h' ->
  exists d' F', holds h' (VRef (self x)) (TDict d') F' /\ forall k, after_reset to_int to_float lower C d dp di k (lookup k d').
Proof.
  intros to_int to_float lower order Ho C x h h' d dp di F G I0 HF HG HI A1 A2 A3 E.
  destruct (reset_spec to_int to_float lower order Ho C x h h' d dp di F G I0 HF HG HI A1 A2 A3 E) as (d' & F' & R1 & R2 & _).
  exists d', F'. auto.
Qed.

Lemma after_reset_det to_int to_float lower C d1 d2 dp di k r1 r2 :
  mem k (exclude_from_reset C) = false ->
  after_reset to_int to_float lower C d1 dp di k r1 -> after_reset to_int to_float lower C d2 dp di k r2 -> same_opt r1 r2.
Proof.
  intros Hk (m1 & A1 & B1) (m2 & A2 & B2). rewrite Hk in *.
  assert (m1 = m2) as ->.
  { inversion A1; subst; inversion A2; subst; auto; congruence. }
  eapply entry_det; eauto.
Qed.

(** Two contexts with the same parent and the same initial values are the same
    after a reset, whatever happened to them before (but for protected entries). *)
Theorem C25_fresh : forall to_int to_float lower order, (forall l, Permutation (order l) l) ->
  forall C x1 h1 h1' d1 F1 G1 I1 x2 h2 h2' d2 F2 G2 I2 dp di,
  holds h1 (VRef (self x1)) (TDict d1) F1 -> holds_parent h1 (parent x1) dp G1 -> holds h1 (VRef (initial x1)) (TDict di) I1 ->
  apart F1 G1 -> apart F1 I1 -> apart G1 I1 ->
  holds h2 (VRef (self x2)) (TDict d2) F2 -> holds_parent h2 (parent x2) dp G2 -> holds h2 (VRef (initial x2)) (TDict di) I2 ->
  apart F2 G2 -> apart F2 I2 -> apart G2 I2 ->
  reset to_int to_float lower order C x1 h1 = Ok h1' -> reset to_int to_float lower order C x2 h2 = Ok h2' ->
  exists e1 E1 e2 E2, holds h1' (VRef (self x1)) (TDict e1) E1 /\ holds h2' (VRef (self x2)) (TDict e2) E2 /\
    forall k, mem k (exclude_from_reset C) = false -> same_opt (lookup k e1) (lookup k e2).
Proof.
  intros to_int to_float lower order Ho C x1 h1 h1' d1 F1 G1 I1 x2 h2 h2' d2 F2 G2 I2 dp di
    HF1 HG1 HI1 A1 A2 A3 HF2 HG2 HI2 B1 B2 B3 E1 E2.
  destruct (C25_reset _ _ _ _ Ho _ _ _ _ _ _ _ _ _ _ HF1 HG1 HI1 A1 A2 A3 E1) as (e1 & X1 & U1 & V1).
  destruct (C25_reset _ _ _ _ Ho _ _ _ _ _ _ _ _ _ _ HF2 HG2 HI2 B1 B2 B3 E2) as (e2 & X2 & U2 & V2).
  exists e1, X1, e2, X2. split; auto. split; auto. intros k Hk. eapply after_reset_det; eauto.
Qed.

(** ** Contexts from their creation on *)
Definition scalars (d : dict str scalar) : dict str val := map (fun kv => (fst kv, VS (snd kv))) d.
Lemma scalars_rep h a d : nth_error h a = Some (CDict (scalars d)) -> wf d ->
  dictrep h a (scalars d) (map (fun kv => (fst kv, TS (snd kv))) d) (fun _ _ => False).
Proof.
  intros H W. constructor; auto; try tauto.
  - unfold wf, keys, scalars. rewrite map_map. exact W.
  - unfold keys, scalars. now rewrite !map_map.
  - intros k. unfold scalars. rewrite !(lookup_map_snd VS), !(lookup_map_snd TS).
    destruct (lookup k d); cbn; constructor. constructor.
Qed.

(** The objects after the creation of a context: its own are new *)
Lemma new_ok to_int to_float lower order : (forall l, Permutation (order l) l) ->
  forall C d0 p dp G i0 di I kv h x h1,
  wf d0 -> holds_parent h p dp G -> flat_dict dp -> holds h (VRef i0) (TDict di) I -> flat_dict di -> apart G I ->
  get_dict h i0 = Ok kv ->
  new_context to_int to_float lower order C (scalars d0) p kv h = Ok (x, h1) ->
  exists d1 I1, parent x = p /\ inv (length h) (initial x) x h1 d1 /\
    (forall a, a < length h -> nth_error h1 a = nth_error h a) /\
    holds_parent h1 p dp G /\ holds h1 (VRef (initial x)) (TDict di) I1 /\ apart G I1 /\
    (forall a, G a -> a < length h) /\ (forall a, I1 a -> a < length h \/ a = initial x) /\
    (exists d, forall k, after_reset to_int to_float lower C d dp di k (lookup k d1)).
Proof.
  intros Ho C d0 p dp G i0 di I0 kv h x h1 W HG Fp HI Fi AGI Ekv E.
  unfold new_context, alloc in E.
  set (ha := h ++ [CDict (scalars d0)]) in *. set (hb := ha ++ [CDict kv]) in *.
  set (x0 := {| self := length h; parent := p; initial := length ha |}) in *.
  destruct (reset to_int to_float lower order C x0 hb) as [h2|] eqn:E2; [|discriminate]. cbn [bind] in E.
  apply ok_inj in E. injection E as <- <-.
  assert (La : length ha = S (length h)) by apply app1_length.
  assert (Lb : length hb = S (length ha)) by apply app1_length.
  assert (Xb : forall a, a < length h -> nth_error hb a = nth_error h a).
  { intros a Ha. unfold hb. rewrite alloc_old by lia. unfold ha. now apply alloc_old. }
  destruct (dict_inv _ _ _ _ HI) as (vi & Qs & Di & EI).
  assert (vi = kv). { unfold get_dict in Ekv. rewrite (dr_cell _ _ _ _ _ Di) in Ekv. now apply ok_inj in Ekv. } subst vi.
  assert (Gn : forall a, G a -> a < length h).
  { intros a Ha. destruct p; [exact (bound _ _ _ _ _ HG Ha)|destruct HG as [_ HG]; exfalso; eapply HG; eauto]. }
  assert (Hs : holds hb (VRef (self x0)) (TDict (map (fun kv => (fst kv, TS (snd kv))) d0)) (none (length h))).
  { apply dict_holds with (d := scalars d0) (Ps := fun _ _ => False). apply scalars_rep; auto.
    cbn [self x0]. unfold hb. rewrite alloc_old by lia. apply alloc_new. }
  assert (HGb : holds_parent hb (parent x0) dp G) by (eapply holds_parent_frame; [exact HG|]; auto).
  set (I1 := fun a => a = length ha \/ exists k, Qs k a).
  assert (HIb : holds hb (VRef (initial x0)) (TDict di) I1).
  { apply dict_holds with (d := kv). cbn [initial x0]. apply (dict_alloc ha i0).
    destruct Di as [D1 D2 D3 D4 D5 D6]. constructor; auto.
    - unfold ha. rewrite alloc_old; auto. eapply nth_lt; eauto.
    - intros k. eapply frame_entry; [apply D4|]. intros a Ha. apply alloc_old. eapply bound_entry; [apply D4|exact Ha]. }
  assert (Qn : forall k a, Qs k a -> a < length h).
  { intros k a Ha. eapply bound_entry; [apply (dr_entry _ _ _ _ _ Di k)|exact Ha]. }
  assert (A1 : apart (none (length h)) G). { intros a. rewrite none_iff. intros -> Hg. apply Gn in Hg. lia. }
  assert (A2 : apart (none (length h)) I1). { intros a. rewrite none_iff. intros -> [Hi|[k Hk]]; [lia|apply Qn in Hk; lia]. }
  assert (A3 : apart G I1).
  { intros a Hg [->|[k Hk]]; [apply Gn in Hg; lia|]. apply (AGI a Hg). rewrite EI. right; eauto. }
  destruct (reset_spec to_int to_float lower order Ho C x0 hb h2 _ dp di _ G I1 Hs HGb HIb A1 A2 A3 E2) as (d1 & F1 & R1 & R2 & R3 & R4 & R5).
  assert (Fn : forall a, F1 a -> length h <= a /\ a <> length ha).
  { intros a Ha. destruct (R5 Fp Fi a Ha) as [Hf|Hf]; [apply none_iff in Hf; subst; split; lia|split; lia]. }
  assert (Fr : forall a, a < length hb -> a <> length h -> nth_error h2 a = nth_error hb a).
  { intros a Ha Hn. apply R4; auto. rewrite none_iff. auto. }
  exists d1, I1. split; [reflexivity|]. split; [|split; [|split; [|split; [|split; [|split; [|split]]]]]].
  - exists F1. split; [exact R1|]. cbn [initial x0]. split; [lia|]. split; [lia|]. exact Fn.
  - intros a Ha. rewrite Fr by lia. auto.
  - eapply holds_parent_frame; [exact HGb|]. intros a Ha. apply Gn in Ha. apply Fr; lia.
  - eapply frame; [exact HIb|]. intros a [->|[k Hk]]; [apply Fr; lia|]. apply Qn in Hk. apply Fr; lia.
  - exact A3.
  - exact Gn.
  - intros a [->|[k Hk]]; [right; reflexivity|left; eauto].
  - eexists. exact R2.
Qed.

(** A context that is changed in any way and then reset has the entries it had
    after its creation (but for protected entries).  The entries of the parent and
    the initial values must be flat: no mutable values inside of mutable values. *)
Theorem C25_history_partial : forall to_int to_float lower order, (forall l, Permutation (order l) l) ->
  forall C d0 p dp G i0 di I kv h x h1 ops h2,
  wf d0 -> holds_parent h p dp G -> flat_dict dp -> holds h (VRef i0) (TDict di) I -> flat_dict di -> apart G I ->
  get_dict h i0 = Ok kv ->
  new_context to_int to_float lower order C (scalars d0) p kv h = Ok (x, h1) ->
  run to_int to_float lower order C x (ops ++ [Reset]) h1 = Ok h2 ->
  exists d1 F1 d2 F2, holds h1 (VRef (self x)) (TDict d1) F1 /\ holds h2 (VRef (self x)) (TDict d2) F2 /\
    forall k, mem k (exclude_from_reset C) = false -> same_opt (lookup k d1) (lookup k d2).
Proof.
  intros to_int to_float lower order Ho C d0 p dp G i0 di I0 kv h x h1 ops h2 W HG Fp HI Fi AGI Ekv En Er.
  destruct (new_ok _ _ _ _ Ho _ _ _ _ _ _ _ _ _ _ _ _ W HG Fp HI Fi AGI Ekv En) as (d1 & I1 & Hp & J1 & J2 & HG1 & HI1 & A1 & Gn & In1 & (d & J3)).
  assert (Erun : exists h3, run to_int to_float lower order C x ops h1 = Ok h3 /\ reset to_int to_float lower order C x h3 = Ok h2).
  { clear - Er. revert h1 Er. induction ops as [|o ops IH]; intros h1 Er; cbn [run app] in *.
    - exists h1. split; auto. cbn [do_op] in Er. destruct (reset _ _ _ _ _ _ _); [|discriminate]. exact Er.
    - destruct (do_op _ _ _ _ _ _ _ _) as [h'|]; [|discriminate]. cbn [bind] in *. apply IH. exact Er. }
  destruct Erun as (h3 & E3 & E4). rewrite <- Hp in HG1.
  destruct (run_ok _ _ _ _ Ho (length h) (initial x) C x dp G di I1 ops h1 h3 d1 J1 HG1 Fp HI1 Fi A1 Gn In1 E3) as (d3 & K1 & K2).
  assert (HG3 : holds_parent h3 (parent x) dp G) by (eapply holds_parent_frame; [exact HG1|]; auto).
  assert (HI3 : holds h3 (VRef (initial x)) (TDict di) I1) by (eapply frame; [exact HI1|]; auto).
  destruct (op_ok _ _ _ _ Ho (length h) (initial x) C x h3 h2 d3 dp G di I1 Reset K1 HG3 Fp HI3 Fi A1 Gn In1 E4) as (d4 & L1 & _ & L3).
  destruct J1 as (F1 & HF1 & _). destruct L1 as (F4 & HF4 & _).
  exists d1, F1, d4, F4. split; auto. split; auto. intros k Hk.
  eapply after_reset_det; [exact Hk|apply J3|apply (L3 eq_refl)].
Qed.

(** * C27 *)

(** Creating a context and doing anything with it changes no object that existed
    before: not its parent, not its siblings.  The entries of the parent and the
    initial values must be flat. *)
Theorem C27_isolated_partial : forall to_int to_float lower order, (forall l, Permutation (order l) l) ->
  forall C d0 p dp G i0 di I kv h x h1 ops h2,
  wf d0 -> holds_parent h p dp G -> flat_dict dp -> holds h (VRef i0) (TDict di) I -> flat_dict di -> apart G I ->
  get_dict h i0 = Ok kv ->
  new_context to_int to_float lower order C (scalars d0) p kv h = Ok (x, h1) ->
  run to_int to_float lower order C x ops h1 = Ok h2 ->
  forall a, a < length h -> nth_error h2 a = nth_error h a.
Proof.
  intros to_int to_float lower order Ho C d0 p dp G i0 di I0 kv h x h1 ops h2 W HG Fp HI Fi AGI Ekv En Er a Ha.
  destruct (new_ok _ _ _ _ Ho _ _ _ _ _ _ _ _ _ _ _ _ W HG Fp HI Fi AGI Ekv En) as (d1 & I1 & Hp & J1 & J2 & HG1 & HI1 & A1 & Gn & In1 & _).
  rewrite <- Hp in HG1.
  destruct (run_ok _ _ _ _ Ho (length h) (initial x) C x dp G di I1 ops h1 h2 d1 J1 HG1 Fp HI1 Fi A1 Gn In1 Er) as (d3 & K1 & K2).
  rewrite K2 by auto. auto.
Qed.

(** Finding: sets in the dictionary label_resets (settings.py) are shared.  A
    document whose header has an entry for label_resets changes its parent. *)
Definition nested_parent : list cell :=
  [CDict [(lit "label_resets", VRef 1)]; CDict [(lit "chapter", VRef 2)]; CSet [VS (SStr (lit "section"))]; CDict nil].
Definition nested_dp : dict str tree := [(lit "label_resets", TDict [(lit "chapter", TSet [SStr (lit "section")])])].
Lemma nested_holds h : firstn 3 h = firstn 3 nested_parent ->
  exists G, holds h (VRef 0) (TDict nested_dp) G /\ forall x, G x -> x < 3.
Proof.
  intros E.
  assert (Hn : forall i c, i < 3 -> nth_error nested_parent i = Some c -> nth_error h i = Some c).
  { intros i c Hi Hc. destruct h as [|a0 [|a1 [|a2 r]]]; try discriminate E. cbn in E. injection E as -> -> ->.
    destruct i as [|[|[|i]]]; auto. lia. }
  eexists. split.
  - eapply holds_one; [apply Hn; [lia|reflexivity]| |].
    + eapply holds_one; [apply Hn; [lia|reflexivity]| |].
      * apply (holds_set h 2 [SStr (lit "section")]). apply Hn; [lia|reflexivity].
      * intros X; discriminate.
    + rewrite one_iff. intros [X|X]; discriminate.
  - intros x. rewrite !one_iff. lia.
Qed.
Definition get_ok {A} (a : A) (r : result A) : A := match r with Ok b => b | Raise _ => a end.
Definition leak_header : str := lit "---
label_resets:
  chapter: figure
---
".
Definition leak_new : context * list cell := get_ok ({| self := 0; parent := None; initial := 0 |}, nil)
  (new_context no_int no_float id_str id_order DocumentContext (scalars nil) (Some 0) nil nested_parent).
Definition leak_run : list cell := get_ok nil
  (run no_int no_float id_str id_order DocumentContext (fst leak_new) [Load leak_header true] (snd leak_new)).
Theorem C27_isolated_refuted :
  ~ (forall to_int to_float lower order, (forall l, Permutation (order l) l) ->
     forall C d0 p dp G i0 di I kv h x h1 ops h2,
     wf d0 -> holds_parent h p dp G -> holds h (VRef i0) (TDict di) I -> flat_dict di -> apart G I ->
     get_dict h i0 = Ok kv ->
     new_context to_int to_float lower order C (scalars d0) p kv h = Ok (x, h1) ->
     run to_int to_float lower order C x ops h1 = Ok h2 ->
     forall a, a < length h -> nth_error h2 a = nth_error h a).
Proof.
  intros H. destruct (nested_holds nested_parent eq_refl) as (G & HG & Gn).
  assert (Hi : holds nested_parent (VRef 3) (TDict nil) (none 3)) by now apply holds_none.
  assert (Fl : flat_dict nil) by (intros k t E; discriminate E).
  assert (A : apart G (none 3)). { intros a Ha. rewrite none_iff. intros ->. apply Gn in Ha. lia. }
  specialize (H no_int no_float id_str id_order (fun l => Permutation_refl l) DocumentContext nil (Some 0) nested_dp G 3 nil (none 3) nil
    nested_parent (fst leak_new) (snd leak_new) [Load leak_header true] leak_run (NoDup_nil _) HG Hi Fl A eq_refl).
  assert (E1 : new_context no_int no_float id_str id_order DocumentContext (scalars nil) (Some 0) nil nested_parent = Ok (fst leak_new, snd leak_new))
    by (vm_compute; reflexivity).
  assert (E2 : run no_int no_float id_str id_order DocumentContext (fst leak_new) [Load leak_header true] (snd leak_new) = Ok leak_run)
    by (vm_compute; reflexivity).
  specialize (H E1 E2 2). assert (2 < length nested_parent) as L by (cbn; lia). specialize (H L).
  vm_compute in H. discriminate H.
Qed.

(** A parent with a set, and initial values: the hypotheses of [C27_isolated_partial]
    and (with the list of changes that ends in a reset) of [C25_history_partial] *)
Definition flat_parent : list cell :=
  [CDict [(lit "targets", VRef 1)]; CSet [VS (SStr (lit "html"))]; CDict [(lit "doc", VS (SInt 1))]].
Example C27_ex :
  exists G I x h1 h2, holds_parent flat_parent (Some 0) [(lit "targets", TSet [SStr (lit "html")])] G /\
    flat_dict [(lit "targets", TSet [SStr (lit "html")])] /\
    holds flat_parent (VRef 2) (TDict [(lit "doc", TS (SInt 1))]) I /\ flat_dict [(lit "doc", TS (SInt 1))] /\ apart G I /\
    get_dict flat_parent 2 = Ok [(lit "doc", VS (SInt 1))] /\
    new_context no_int no_float id_str id_order BaseContext (scalars nil) (Some 0) [(lit "doc", VS (SInt 1))] flat_parent = Ok (x, h1) /\
    run no_int no_float id_str id_order BaseContext x ([UpdateText (lit "targets: tex") true; AssignList (lit "l") nil; Append (lit "l") (SInt 3)] ++ [Reset]) h1 = Ok h2 /\
    nth_error h2 (self x) = Some (CDict [(lit "targets", VRef 8); (lit "doc", VS (SInt 1))]) /\
    nth_error h2 8 = Some (CSet [VS (SStr (lit "html"))]).
Proof.
  exists (one (lit "targets") (fun x => x = 1) 0), (one (lit "doc") (fun _ => False) 2).
  eexists _, _, _. split; [|split; [|split; [|split; [|split; [|split; [|split; [|split; [|split]]]]]]]].
  - eapply holds_one; [reflexivity|apply (holds_set flat_parent 1 [SStr (lit "html")]); reflexivity|discriminate].
  - intros k t. cbn. destruct (eqb k _); [|discriminate]. intros E. injection E as <-. exact I.
  - eapply holds_one; [reflexivity|constructor|auto].
  - intros k t. cbn. destruct (eqb k _); [|discriminate]. intros E. injection E as <-. exact I.
  - intros a. rewrite !one_iff. lia.
  - reflexivity.
  - vm_compute. reflexivity.
  - vm_compute. reflexivity.
  - reflexivity.
  - reflexivity.
Qed.

(** Finding: with nested lists, resetting twice is not the same as once.  The
    first reset adds the initial value to the list of the parent, too. *)
Definition twice_h : list cell :=
  [CDict [(lit "a", VRef 1)]; CDict [(lit "b", VRef 2)]; CList [VS (SInt 1)];
   CDict [(lit "a", VRef 4)]; CDict [(lit "b", VRef 5)]; CList [VS (SInt 2)]; CDict nil].
Definition twice_x : context := {| self := 6; parent := Some 0; initial := 3 |}.
Definition abl (l : list Z) : dict str tree := [(lit "a", TDict [(lit "b", TList (map (fun z => TS (SInt z)) l))])].
Lemma all_ints h zs : exists P, holds_all h (map (fun z => VS (SInt z)) zs) (map (fun z => TS (SInt z)) zs) P /\ forall x, ~ P x.
Proof. destruct (all_scalars h (map SInt zs)) as (P & H1 & H2). rewrite !map_map in H1. eauto. Qed.
Lemma abl_holds h a b c zs : nth_error h a = Some (CDict [(lit "a", VRef b)]) -> nth_error h b = Some (CDict [(lit "b", VRef c)]) ->
  nth_error h c = Some (CList (map (fun z => VS (SInt z)) zs)) -> a <> b -> a <> c -> b <> c ->
  exists G, holds h (VRef a) (TDict (abl zs)) G /\ forall x, G x -> x = a \/ x = b \/ x = c.
Proof.
  intros Ha Hb Hc N1 N2 N3. destruct (all_ints h zs) as (P & P1 & P2). eexists. split.
  - eapply holds_one; [exact Ha|eapply holds_one; [exact Hb|eapply holds_list; [exact Hc|exact P1|apply P2]|]|].
    + intros [X|X]; [auto|now apply P2 in X].
    + rewrite one_iff. intros [X|[X|X]]; [auto|auto|now apply P2 in X].
  - intros x. rewrite !one_iff. intros [X|[X|[X|X]]]; auto. now apply P2 in X.
Qed.
Theorem C25_twice_refuted :
  ~ (forall to_int to_float lower order, (forall l, Permutation (order l) l) ->
     forall C x h h1 h2 dp di F G I d1 d2 F1 F2,
     holds h (VRef (self x)) (TDict nil) F -> holds_parent h (parent x) dp G -> holds h (VRef (initial x)) (TDict di) I ->
     apart F G -> apart F I -> apart G I ->
     reset to_int to_float lower order C x h = Ok h1 -> reset to_int to_float lower order C x h1 = Ok h2 ->
     holds h1 (VRef (self x)) (TDict d1) F1 -> holds h2 (VRef (self x)) (TDict d2) F2 ->
     forall k, mem k (exclude_from_reset C) = false -> same_opt (lookup k d1) (lookup k d2)).
Proof.
  intros H.
  destruct (abl_holds twice_h 0 1 2 [1%Z]) as (G & HG & Gn); try reflexivity; try lia.
  destruct (abl_holds twice_h 3 4 5 [2%Z]) as (I0 & HI & In); try reflexivity; try lia.
  set (h1 := get_ok nil (reset no_int no_float id_str id_order BaseContext twice_x twice_h)).
  set (h2 := get_ok nil (reset no_int no_float id_str id_order BaseContext twice_x h1)).
  assert (E1 : reset no_int no_float id_str id_order BaseContext twice_x twice_h = Ok h1) by (vm_compute; reflexivity).
  assert (E2 : reset no_int no_float id_str id_order BaseContext twice_x h1 = Ok h2) by (vm_compute; reflexivity).
  destruct (abl_holds h1 6 7 2 [2%Z; 1%Z]) as (F1 & HF1 & _); try reflexivity; try lia.
  destruct (abl_holds h2 6 9 2 [2%Z; 2%Z; 1%Z]) as (F2 & HF2 & _); try reflexivity; try lia.
  assert (HF : holds twice_h (VRef (self twice_x)) (TDict nil) (none 6)) by now apply holds_none.
  assert (A1 : apart (none 6) G). { intros y. rewrite none_iff. intros -> Hy. apply Gn in Hy. lia. }
  assert (A2 : apart (none 6) I0). { intros y. rewrite none_iff. intros -> Hy. apply In in Hy. lia. }
  assert (A3 : apart G I0). { intros y Hy Hy'. apply Gn in Hy. apply In in Hy'. lia. }
  specialize (H no_int no_float id_str id_order (fun l => Permutation_refl l) BaseContext twice_x twice_h h1 h2 _ _ _ _ _ _ _ _ _
    HF HG HI A1 A2 A3 E1 E2 HF1 HF2 (lit "a") eq_refl).
  cbn in H. inversion H as [|t u Hs]; subst. inversion Hs as [|d e Hk]; subst. specialize (Hk (lit "b")). cbn in Hk.
  inversion Hk as [|t u Ht]; subst. inversion Ht.
Qed.

(** Finding: a protected list with an initial value grows with every reset. *)
Theorem C25_protected_refuted :
  ~ (forall to_int to_float lower order, (forall l, Permutation (order l) l) ->
     forall C x h h1 h2 di F I d1 d2 F1 F2, flat_dict di -> parent x = None ->
     holds h (VRef (self x)) (TDict nil) F -> holds h (VRef (initial x)) (TDict di) I -> apart F I ->
     reset to_int to_float lower order C x h = Ok h1 -> reset to_int to_float lower order C x h1 = Ok h2 ->
     holds h1 (VRef (self x)) (TDict d1) F1 -> holds h2 (VRef (self x)) (TDict d2) F2 ->
     forall k, same_opt (lookup k d1) (lookup k d2)).
Proof.
  intros H.
  set (C := {| do_not_inherit := nil; exclude_from_reset := [lit "paths"]; replace := nil |}).
  set (x := {| self := 0; parent := None; initial := 1 |}).
  set (h := [CDict nil; CDict [(lit "paths", VRef 2)]; CList [VS (SInt 7)]]).
  set (h1 := get_ok nil (reset no_int no_float id_str id_order C x h)).
  set (h2 := get_ok nil (reset no_int no_float id_str id_order C x h1)).
  assert (E1 : reset no_int no_float id_str id_order C x h = Ok h1) by (vm_compute; reflexivity).
  assert (E2 : reset no_int no_float id_str id_order C x h1 = Ok h2) by (vm_compute; reflexivity).
  assert (L : forall h a b zs, a <> b -> nth_error h a = Some (CDict [(lit "paths", VRef b)]) ->
    nth_error h b = Some (CList (map (fun z => VS (SInt z)) zs)) ->
    exists G, holds h (VRef a) (TDict [(lit "paths", TList (map (fun z => TS (SInt z)) zs))]) G /\ forall y, G y -> y = a \/ y = b).
  { clear. intros h a b zs N Ha Hb. destruct (all_ints h zs) as (P & P1 & P2). eexists. split.
    - eapply holds_one; [exact Ha|eapply holds_list; [exact Hb|exact P1|apply P2]|]. intros [X|X]; [auto|now apply P2 in X].
    - intros y. rewrite one_iff. intros [X|[X|X]]; auto. now apply P2 in X. }
  destruct (L h 1 2 [7%Z]) as (I0 & HI & In); try reflexivity; try lia.
  destruct (L h1 0 3 [7%Z]) as (F1 & HF1 & _); try reflexivity; try lia.
  destruct (L h2 0 3 [7%Z; 7%Z]) as (F2 & HF2 & _); try reflexivity; try lia.
  assert (HF : holds h (VRef (self x)) (TDict nil) (none 0)) by now apply holds_none.
  assert (A : apart (none 0) I0). { intros y. rewrite none_iff. intros -> Hy. apply In in Hy. lia. }
  assert (Fl : flat_dict [(lit "paths", TList (map (fun z => TS (SInt z)) [7%Z]))]).
  { intros k t. cbn. destruct (eqb k _); [|discriminate]. intros E. injection E as <-. cbn. constructor; [eexists; reflexivity|constructor]. }
  specialize (H no_int no_float id_str id_order (fun l => Permutation_refl l) C x h h1 h2 _ _ _ _ _ _ _ Fl eq_refl
    HF HI A E1 E2 HF1 HF2 (lit "paths")).
  cbn in H. inversion H as [|t u Hs]; subst. inversion Hs.
Qed.

(** The tags that an update copies into a dictionary get it as their context. *)
Theorem C26_tags : forall to_int to_float lower n rp ow self ch ks h h', self < length h -> entries_exist h -> own_tags h self ->
  match_update to_int to_float lower n rp ow self ch ks h = Ok h' -> entries_exist h' /\ own_tags h' self.
Proof.
  intros to_int to_float lower n rp ow self ch ks h h' L E O H.
  destruct (good_update to_int to_float lower n rp ow self ch ks h h' self (conj E (conj O L)) H) as (A & B & _). auto.
Qed.
(** The tags of a new context, and of one that is reset, belong to it and not to
    its parent. *)
Theorem C25_tags : forall to_int to_float lower order C d0 p kv h x h', entries_exist h ->
  (forall k b, lookup k kv = Some (VRef b) -> b < length h) ->
  new_context to_int to_float lower order C (scalars d0) p kv h = Ok (x, h') ->
  own_tags h' (self x) /\
  forall h'', reset to_int to_float lower order C x h' = Ok h'' -> own_tags h'' (self x).
Proof.
  intros to_int to_float lower order C d0 p kv h x h' E K H. unfold new_context, alloc in H.
  set (ha := h ++ [CDict (scalars d0)]) in *. set (hb := ha ++ [CDict kv]) in *.
  destruct (reset _ _ _ _ _ _ hb) as [h1|] eqn:E1; [|discriminate]. cbn [bind] in H. apply ok_inj in H. injection H as <- <-.
  assert (La : length ha = S (length h)) by (unfold ha; rewrite app_length; cbn; lia).
  assert (G : good hb (length h)).
  { apply good_alloc.
    - split; [|split; [|lia]].
      + intros a d k b Ha Hk. unfold ha in *. apply app_nth in Ha. destruct Ha as [[_ Ha]|[_ Ha]].
        * specialize (E _ _ _ _ Ha Hk). lia.
        * injection Ha as ->. unfold scalars in Hk. rewrite (lookup_map_snd VS) in Hk. destruct (lookup k d0); discriminate.
      + intros d k b cls ctx t Hd Hk _. unfold ha in Hd. rewrite alloc_new in Hd. injection Hd as <-. unfold scalars in Hk.
        rewrite (lookup_map_snd VS) in Hk. destruct (lookup k d0); discriminate.
    - intros d k b Ed Hk. injection Ed as <-. specialize (K _ _ Hk). lia. }
  pose proof (good_reset _ _ _ _ _ _ _ _ _ G E1) as G1. cbn [self]. split; [apply G1|].
  intros h'' E2. exact (proj1 (proj2 (good_reset _ _ _ _ _ _ _ _ _ G1 E2))).
Qed.
Example C25_tags_ex :
  let h := [CDict [(lit "title", VRef 1)]; CTag 3 0 (lit "My title")] in
  entries_exist h /\ exists x h', new_context no_int no_float id_str id_order BaseContext (scalars nil) (Some 0) nil h = Ok (x, h') /\
  nth_error h' (self x) = Some (CDict [(lit "title", VRef 4)]) /\ nth_error h' 4 = Some (CTag 3 (self x) (lit "My title")).
Proof.
  split.
  - intros a d k b Ha Hk. destruct a as [|[|[|a]]]; cbn in Ha; try discriminate. injection Ha as <-. cbn in Hk.
    destruct (eqb k _); [injection Hk as <-; cbn; lia|discriminate].
  - eexists _, _. split; [vm_compute; reflexivity|]. split; reflexivity.
Qed.
